From Coq Require Import Relations Sorting.Sorted Permutation.
From Verif Require Import Base SliceModel StateDataModel StateDataSpec NodeSpec GraphModel GraphSpec GraphProofs GraphProofs2 GraphProofs3 GraphProps ViewModel ViewSpec ProposeModel ProposeSpec ProposeProofs Replay.
Local Open Scope nat_scope.

Section P.
Context {V : Type}.
Variable veqb : V -> V -> bool.
Variable N : nat -> vnode V.
Variable G : nat -> pin V -> Prop.
Variable F : nat -> list (list V) -> option (list V).
Variable start : forall n, vn_ST (N n) -> Prop.
Variable step : forall n, vn_ST (N n) -> vn_ST (N n) -> Prop.
Variable g : graph.
Hypothesis WM : wf_model veqb N G F start step g.
Notation preds n := (oget (gpred g) n).
Notation live n := (In n (gnodes g)).

Definition ready (val : nat -> list V) (n : nat) (s : vn_ST (N n)) : Prop :=
  if is_decision g n then exists clean, dcontract veqb (N n) (G n) (start n) (step n) clean /\ clean (val n) s
  else F n (map val (preds n)) = Some (val n) /\ exists clean, contract veqb (N n) (map G (preds n)) (G n) (F n) clean /\ clean (map val (preds n)) s.
(** The invariant between proposals. *)
Definition quiet (st : states N) (val : nat -> list V) : Prop := forall n, live n -> fits (vn_shape (N n)) (val n) /\ exists s, st n = Some s /\ ready val n s.

Lemma dec_pre n : is_decision g n = true -> preds n = [].
Proof. intros H. apply is_dec_spec in H. exact (wf_dp _ (wm_WF veqb N G F start step g WM) n H). Qed.
Lemma maps_still (val : nat -> list V) l : map still (map val l) = map (fun m => still (val m)) l.
Proof. now rewrite map_map. Qed.
Lemma ready_out val n s : ready val n s -> vn_out (N n) s (map (fun m => still (val m)) (preds n)) = Some (still (val n)) /\ G n (still (val n)).
Proof.
  unfold ready. destruct (is_decision g n) eqn:Ed.
  - intros (clean & (_ & H & _) & Hc). rewrite (dec_pre n Ed). cbn [map]. destruct (H _ _ Hc) as (_ & A & B). auto.
  - intros (E & clean & (_ & H & _) & Hc). destruct (H _ _ Hc) as (v & E2 & A & B). rewrite maps_still in B. assert (v = val n) by congruence. now subst.
Qed.
Lemma quiet_shows st val : quiet st val -> shows N g st val.
Proof.
  intros H n Hn. apply (pin_rec_of veqb N G F start step g WM (fun k => live k) st (fun m => still (val m))); auto.
  - intros k Hk. split; auto. intros m. now apply (pred_live veqb N G F start step g WM).
  - intros k Hk. destruct (H k Hk) as (_ & s & E & R). exists s. split; auto. now apply ready_out.
Qed.
Lemma shows_unique st v1 v2 : shows N g st v1 -> shows N g st v2 -> forall n, live n -> v1 n = v2 n.
Proof. intros H1 H2 n Hn. specialize (H1 n Hn). specialize (H2 n Hn). rewrite H1 in H2. now injection H2. Qed.
Lemma ready_ext v1 v2 n s : live n -> (forall m, live m -> v1 m = v2 m) -> ready v1 n s -> ready v2 n s.
Proof.
  intros Hn H. unfold ready. rewrite (H n Hn). replace (map v2 (preds n)) with (map v1 (preds n)); [auto|]. apply map_ext_in. intros m Hm. apply H. now apply (pred_live veqb N G F start step g WM n).
Qed.
Lemma quiet_ext st v1 v2 : (forall m, live m -> v1 m = v2 m) -> quiet st v1 -> quiet st v2.
Proof. intros H Q n Hn. destruct (Q n Hn) as (A & s & B & C). rewrite <- (H n Hn). split; [exact A|]. exists s. split; [exact B|]. now apply (ready_ext v1). Qed.

Lemma eval_unique dv v1 v2 : evaluation F g dv v1 -> evaluation F g dv v2 -> forall n, live n -> v1 n = v2 n.
Proof.
  intros H1 H2. apply (topo_ind veqb N G F start step g WM). intros n Hn IH. specialize (H1 n Hn). specialize (H2 n Hn). destruct (is_decision g n); [congruence|].
  rewrite (map_ext_in _ _ _ IH) in H1. congruence.
Qed.

(** ** Initialisation *)
Lemma init_prefix st0 dv val : starting N start g st0 dv -> evaluation F g dv val -> forall l1 l2, gnodes g = l1 ++ l2 ->
  exists st, rfold (fun st n => match st n with
                     | Some _ => Ok st
                     | None => match inputs N g st n with
                               | Some ps => rbind (vn_init (N n) ps) (fun s => Ok (sset N st n s))
                               | None => UB
                               end
                     end) st0 l1 = Ok st /\
    (forall n, In n l1 -> fits (vn_shape (N n)) (val n) /\ exists s, st n = Some s /\ ready val n s) /\ (forall n, ~ In n l1 -> st n = st0 n).
Proof.
  intros Hs He. pose proof WM as (_ & Gs & _ & Wn). pose proof (wm_WF veqb N G F start step g WM) as W. destruct (wf_s _ W Gs) as (_ & Hk & _).
  induction l1 as [|x l1 IH] using rev_ind; intros l2 E; [exists st0; split; [reflexivity|]; split; [intros n []|auto]|].
  rewrite <- app_assoc in E. cbn [app] in E. destruct (IH (x :: l2) E) as (st & E1 & D & U). clear IH.
  assert (Lx : live x) by (rewrite E; apply in_or_app; right; now left).
  assert (Nx : ~ In x l1) by (pose proof (wf_nd _ W) as Nd; rewrite E in Nd; apply NoDup_remove_2 in Nd; intros H; apply Nd; apply in_or_app; now left).
  assert (Ra : forall A B (f : A -> B -> res A) a l b, rfold f a (l ++ [b]) = match rfold f a l with Ok a' => f a' b | Throw => Throw | UB => UB end).
  { intros A B f a l b. revert a. induction l as [|y l IHl]; intros a; cbn [app rfold]; [destruct (f a b); reflexivity|]. destruct (f a y); auto. }
  assert (L1 : forall n, In n l1 -> live n) by (intros n Hn; rewrite E; apply in_or_app; now left).
  assert (Tx : t g x = Z.of_nat (length l1)).
  { unfold t. apply Hk. rewrite E, nth_error_app2, Nat.sub_diag by lia. reflexivity. }
  assert (Tb : forall m, live m -> (t g m < t g x)%Z -> In m l1).
  { intros m Lm Lt. destruct (In_nth_error _ _ Lm) as [i Hi]. unfold t in Lt at 1. rewrite (Hk i m Hi), Tx in Lt. rewrite E, nth_error_app1 in Hi by lia. eapply nth_error_In; eauto. }
  assert (Ta : forall m, In m l1 -> (t g m < t g x)%Z).
  { intros m Hm. destruct (In_nth_error _ _ Hm) as [i Hi]. assert (i < length l1) by (apply nth_error_Some; congruence). rewrite Tx. unfold t. rewrite (Hk i m); [lia|]. now rewrite E, nth_error_app1 by lia. }
  assert (Px : forall m, In m (preds x) -> In m l1).
  { intros m Hm. apply Tb; [now apply (pred_live veqb N G F start step g WM x)|now apply (t_pred veqb N G F start step g WM)]. }
  assert (Ei : inputs N g st x = Some (map (fun m => still (val m)) (preds x))).
  { apply (inputs_rec veqb N G F start step g WM (fun k => In k l1)); auto.
    - intros n Hn. split; [auto|]. intros m Hm. apply Tb; [now apply (pred_live veqb N G F start step g WM n); auto|]. pose proof (Ta n Hn). pose proof (t_pred veqb N G F start step g WM n m (L1 n Hn) Hm). lia.
    - intros n Hn. destruct (D n Hn) as (_ & s & A & B). exists s. split; auto. now apply ready_out. }
  assert (Keep : forall st', (exists s, st' x = Some s /\ ready val x s) -> fits (vn_shape (N x)) (val x) -> (forall n, n <> x -> st' n = st n) ->
    (forall n, In n (l1 ++ [x]) -> fits (vn_shape (N n)) (val n) /\ exists s, st' n = Some s /\ ready val n s) /\ (forall n, ~ In n (l1 ++ [x]) -> st' n = st0 n)).
  { intros st' H1 Hf H2. split.
    - intros n Hn. apply in_app_or in Hn. destruct Hn as [Hn|[<-|[]]]; [|auto]. rewrite H2 by congruence. auto.
    - intros n Hn. rewrite H2 by (intros ->; apply Hn; apply in_or_app; right; now left). apply U. intros H. apply Hn. apply in_or_app. now left. }
  rewrite Ra, E1, (U x Nx). specialize (Hs x Lx). pose proof (He x Lx) as Hex. destruct (Wn x Lx) as [Wp Wc].
  destruct (is_decision g x) eqn:Ed.
  - destruct Hs as (s & Hst & Hstart & Hout). destruct Wc as (clean & Hcl). pose proof Hcl as (C1 & C2 & _). destruct (C1 s Hstart) as (v & Cv). destruct (C2 v s Cv) as (Fv & _ & Ov).
    assert (Ev : v = val x) by (rewrite Hex; rewrite Hout in Ov; injection Ov; congruence). rewrite Ev in *.
    assert (R : ready val x s) by (unfold ready; rewrite Ed; eauto).
    destruct Hst as [Hst|[Hst Hin]]; rewrite Hst.
    + exists st. split; [reflexivity|]. apply Keep; auto. exists s. split; auto. now rewrite (U x Nx).
    + rewrite Ei, (dec_pre x Ed). cbn [map]. rewrite Hin. cbn [rbind]. eexists. split; [reflexivity|]. apply Keep; auto; [|intros n Hn; apply sset_neq; congruence]. exists s. split; [apply sset_eq|exact R].
  - rewrite Hs, Ei. destruct Wc as (clean & Hcl). pose proof Hcl as (C1 & _).
    assert (Ff : Forall2 fits (vn_pre (N x)) (map val (preds x))).
    { rewrite Wp. assert (Ff : forall m, In m (preds x) -> fits (vn_shape (N m)) (val m)) by (intros m Hm; apply D; auto). revert Ff. generalize (preds x). intros l Ff. induction l as [|m l IHl]; cbn [map]; [constructor|]. constructor; [apply Ff; now left|apply IHl; intros k Hk1; apply Ff; now right]. }
    destruct (C1 _ _ Ff Hex) as (Fv & s & Is & Cs). rewrite maps_still in Is. rewrite Is. cbn [rbind]. eexists. split; [reflexivity|].
    apply Keep; auto; [|intros n Hn; apply sset_neq; congruence]. exists s. split; [apply sset_eq|]. unfold ready. rewrite Ed. eauto.
Qed.
Lemma init_ok st0 dv val : starting N start g st0 dv -> evaluation F g dv val -> exists st, initialize_all N g st0 = Ok st /\ quiet st val.
Proof.
  intros Hs He. destruct (init_prefix st0 dv val Hs He (gnodes g) [] (eq_sym (app_nil_r _))) as (st & E & D & _). exists st. split; [exact E|]. intros n Hn. now apply D.
Qed.

(** ** A proposal *)
Lemma still_pin s v : fits s v -> pin_ok veqb s v (still v).
Proof. intros H. split; cbn [still pview pdiff psdiff]; auto. lia. Qed.

Section Round.
Variable dbg : bool.
Variable st st1 : states N.
Variable val0 val1 dv : nat -> list V.
Variable sources : list nat.
Hypothesis Q0 : quiet st val0.
Hypothesis Mv : moved N step g sources st st1.
Hypothesis Dd : decided N g st1 dv.
Hypothesis E0 : evaluation F g dv val1.
Variable ns : list nat.
Hypothesis Hns : forall n, In n ns <-> exists s, In s sources /\ reaches g s n.
Hypothesis Nd : NoDup ns.
Hypothesis So : StronglySorted (fun a b => (t g a < t g b)%Z) ns.

Lemma src_live s : In s sources -> live s /\ is_decision g s = true.
Proof. intros H. destruct Mv as (_ & Hi & _). split; [apply (wf_di _ (wm_WF veqb N G F start step g WM)); auto|]. apply is_dec_spec. auto. Qed.
Lemma ns_live n : In n ns -> live n.
Proof.
  intros H. apply Hns in H. destruct H as (s & Hs & R). apply clos_rt_rtn1 in R. induction R as [|y z E _ _]; [now apply src_live|apply E].
Qed.
Lemma ns_up n m : live n -> In m (preds n) -> In m ns -> In n ns.
Proof. intros Hn Hm H. apply Hns in H. destruct H as (s & Hs & R). apply Hns. exists s. split; auto. eapply rt_trans; [exact R|]. apply rt_step. now split. Qed.
Lemma ns_dec n : In n ns -> is_decision g n = true -> In n sources.
Proof.
  intros H Hd. apply Hns in H. destruct H as (s & Hs & R). apply clos_rt_rtn1 in R. inversion R as [|y z E _]; subst; auto. destruct E as [_ E]. rewrite (dec_pre n Hd) in E. destruct E.
Qed.
Lemma src_ns s : In s sources -> In s ns.
Proof. intros H. apply Hns. exists s. split; auto. apply rt_refl. Qed.

Lemma dec_pin d s : is_decision g d = true -> live d -> st1 d = Some s -> pin_of N g st1 d = vn_out (N d) s [].
Proof.
  intros Hd Ld E. unfold pin_of. pose proof (t_range veqb N G F start step g WM d Ld). destruct (length (gnodes g)) as [|f]; [lia|]. cbn [pin_at]. now rewrite E, (dec_pre d Hd).
Qed.
(** Nodes that depend on no moved decision keep their value. *)
Lemma outside_same : forall n, live n -> ~ In n ns -> val1 n = val0 n.
Proof.
  apply (topo_ind veqb N G F start step g WM (fun n => ~ In n ns -> val1 n = val0 n)). intros n Hn IH Ho. pose proof (E0 n Hn) as He. destruct (Q0 n Hn) as (_ & s & Es & R). unfold ready in R. destruct (is_decision g n) eqn:Ed.
  - destruct (Dd n) as (p & Ep & Ev); [now apply is_dec_spec|]. rewrite He, <- Ev. destruct Mv as (_ & _ & Hm). assert (Es1 : st1 n = Some s) by (rewrite <- Es; apply Hm; intros H; apply Ho; now apply src_ns).
    rewrite (dec_pin n s Ed Hn Es1) in Ep. destruct R as (clean & (_ & C & _) & Hc). destruct (C _ _ Hc) as (_ & _ & O). rewrite O in Ep. injection Ep as <-. reflexivity.
  - destruct R as (E & _). rewrite (map_ext_in val1 val0) in He; [congruence|]. intros m Hm. apply IH; auto. intros H. apply Ho. now apply (ns_up n m).
Qed.

Definition changed_pin (n : nat) (p : pin V) : Prop := pin_ok veqb (vn_shape (N n)) (val0 n) p /\ G n p /\ pview p = val1 n.
Definition pre_prop (n : nat) (s : vn_ST (N n)) : Prop :=
  if is_decision g n then exists clean s0, dcontract veqb (N n) (G n) (start n) (step n) clean /\ clean (val0 n) s0 /\ clos_refl_trans _ (step n) s0 s /\ exists p, vn_out (N n) s [] = Some p /\ pview p = val1 n
  else ready val0 n s.
Definition pre_commit (n : nat) (s : vn_ST (N n)) : Prop := exists c, vn_commit (N n) s (map (fun m => still (val1 m)) (preds n)) = Ok c /\ ready val1 n c.
Definition pre_revert (n : nat) (s : vn_ST (N n)) : Prop := exists r, vn_revert (N n) s (map (fun m => still (val0 m)) (preds n)) = Ok r /\ ready val0 n r.

Lemma prop_one n s P : In n ns -> pre_prop n s -> (forall m, In m (preds n) -> changed_pin m (P m)) ->
  exists s' p, vn_prop (N n) s (map P (preds n)) = Ok s' /\ vn_out (N n) s' (map P (preds n)) = Some p /\ changed_pin n p /\ (pre_commit n s' /\ pre_revert n s').
Proof.
  intros Hin Hp HP. pose proof (ns_live n Hin) as Ln. unfold pre_prop in Hp. unfold pre_commit, pre_revert. destruct (is_decision g n) eqn:Ed.
  - rewrite (dec_pre n Ed) in *. cbn [map]. destruct Hp as (clean & s0 & Hcl & Hc & R & p & O & Ev). pose proof Hcl as (_ & _ & C3).
    destruct (C3 _ _ _ Hc R) as (A & (p' & O' & B1 & B2 & c & B3 & B4) & r & B5 & B6). assert (p' = p) by congruence. subst p'. exists s, p. split; [exact A|]. split; [exact O|]. split; [now split|]. rewrite Ev in B4. split.
    + exists c. split; auto. unfold ready. rewrite Ed. eauto.
    + exists r. split; auto. unfold ready. rewrite Ed. eauto.
  - unfold ready in Hp. rewrite Ed in Hp. destruct Hp as (E & clean & Hcl & Hc). pose proof Hcl as (_ & C2 & C3). destruct WM as (_ & _ & _ & Wn). destruct (Wn n Ln) as [Wp _].
    pose proof (E0 n Ln) as E1. rewrite Ed in E1.
    assert (Ev : map pview (map P (preds n)) = map val1 (preds n)) by (rewrite map_map; apply map_ext_in; intros m Hm; now apply HP).
    destruct (C3 (map val0 (preds n)) s (val0 n) (map P (preds n)) (val1 n) Hc E) as (s' & A & (p & B1 & B2 & B3 & B4) & (c & B5 & B6) & r & B7 & B8).
    + rewrite Wp. clear - HP. revert HP. generalize (preds n). intros l HP. induction l as [|m l IH]; cbn [map combine]; [constructor|]. constructor; [cbn [fst snd]; apply HP; now left|]. apply IH. intros k Hk. apply HP. now right.
    + now rewrite Wp, !map_length.
    + clear - HP. revert HP. generalize (preds n). intros l HP. induction l as [|m l IH]; cbn [map]; [constructor|]. constructor; [apply HP; now left|]. apply IH. intros k Hk. apply HP. now right.
    + now rewrite Ev.
    + exists s', p. split; [exact A|]. split; [exact B1|]. split; [split; auto|]. rewrite Ev, maps_still in B5. rewrite maps_still in B7. rewrite Ev in B6. split.
      * exists c. split; auto. unfold ready. rewrite Ed. split; eauto.
      * exists r. split; auto. unfold ready. rewrite Ed. split; eauto.
Qed.

Lemma start_out n : live n -> ~ In n ns -> exists s, st1 n = Some s /\ ready val0 n s.
Proof.
  intros Hn Ho. destruct (Q0 n Hn) as (_ & s & Es & R). exists s. split; auto. rewrite <- Es. apply Mv. intros H. apply Ho. now apply src_ns.
Qed.
Lemma start_in n : In n ns -> exists s, st1 n = Some s /\ pre_prop n s.
Proof.
  intros Hn. pose proof (ns_live n Hn) as Ln. destruct (Q0 n Ln) as (_ & s & Es & R). unfold pre_prop. destruct (is_decision g n) eqn:Ed.
  - pose proof (ns_dec n Hn Ed) as Hs. destruct Mv as (_ & _ & M). destruct (proj1 (M n) Hs) as (s0 & s1 & A & B & C). assert (s0 = s) by congruence. subst s0. exists s1. split; auto.
    unfold ready in R. rewrite Ed in R. destruct R as (clean & Hcl & Hc). exists clean, s. repeat (split; auto). destruct (Dd n) as (p & Ep & Ev); [now apply is_dec_spec|]. rewrite (dec_pin n s1 Ed Ln B) in Ep.
    exists p. split; auto. rewrite Ev. pose proof (E0 n Ln) as H. rewrite Ed in H. auto.
  - exists s. split; auto. rewrite <- Es. apply Mv. intros H. destruct (src_live n H). congruence.
Qed.

Lemma propagated : exists mid P, propagate_all N g st1 ns = Ok mid /\ (forall n, live n -> pin_of N g mid n = Some (P n) /\ changed_pin n (P n)) /\
  (forall n, In n ns -> exists s, mid n = Some s /\ pre_commit n s /\ pre_revert n s) /\ (forall n, live n -> ~ In n ns -> exists s, mid n = Some s /\ ready val0 n s).
Proof.
  destruct (sweep veqb N G F start step g WM ns Nd ns_live ns_up So (fun n => vn_prop (N n)) changed_pin pre_prop (fun n s _ _ => pre_commit n s /\ pre_revert n s) prop_one st1 (fun n => still (val0 n))) as (mid & P & A & B & C & D).
  - intros n Hn Ho. destruct (start_out n Hn Ho) as (s & Es & R). exists s. destruct (ready_out _ _ _ R) as [O Hg]. split; [exact Es|]. split; [exact O|]. split; [|split; [exact Hg|cbn [still pview]; symmetry; now apply outside_same]].
    apply still_pin. now apply Q0.
  - exact start_in.
  - exists mid, P. split; [exact A|]. split; [exact B|]. split; [exact C|]. intros n Hn Ho. destruct (D n Ho) as [-> _]. now apply start_out.
Qed.

Lemma no_diff_still s v l : (forall n, In n l -> live n) -> quiet s v -> forallb (no_diff N g s) l = true.
Proof. intros Hl Q. apply forallb_forall. intros n Hn. unfold no_diff. pose proof (quiet_shows s v Q n (Hl n Hn)) as E. now rewrite E. Qed.
Lemma chk_true dbg0 c (r : res (states N)) : c = true -> chk dbg0 c r = r.
Proof. intros ->. unfold chk. now rewrite Bool.andb_false_r. Qed.

Lemma fits1 : (exists mid P, forall n : nat, live n -> pin_of N g mid n = Some (P n) /\ changed_pin n (P n)) -> forall n, live n -> fits (vn_shape (N n)) (val1 n).
Proof. intros (mid & P & H) n Hn. destruct (H n Hn) as (_ & A & _ & <-). apply A. Qed.

Lemma committed mid : (forall n, live n -> fits (vn_shape (N n)) (val1 n)) ->
  (forall n, In n ns -> exists s, mid n = Some s /\ pre_commit n s /\ pre_revert n s) -> (forall n, live n -> ~ In n ns -> exists s, mid n = Some s /\ ready val0 n s) ->
  exists st2, commit_all dbg N g mid ns = Ok st2 /\ quiet st2 val1.
Proof.
  intros Hf H1 H2.
  assert (H3 : forall n, live n -> ~ In n ns -> exists s, mid n = Some s /\ ready val1 n s).
  { intros n Hn Ho. destruct (H2 n Hn Ho) as (s & A & B). exists s. split; auto. unfold ready in *. rewrite (outside_same n Hn Ho). rewrite (map_ext_in val1 val0); [exact B|].
    intros m Hm. apply outside_same; [now apply (pred_live veqb N G F start step g WM n)|]. intros H. apply Ho. now apply (ns_up n m). }
  destruct (sweep veqb N G F start step g WM ns Nd ns_live ns_up So (fun n => vn_commit (N n)) (fun n p => p = still (val1 n)) pre_commit (fun n s _ _ => ready val1 n s)) with (st := mid) (P0 := fun n => still (val1 n)) as (st2 & P & A & _ & C & D).
  - intros n s P Hn (c & Ec & R) HP. exists c, (still (val1 n)). assert (E : map P (preds n) = map (fun m => still (val1 m)) (preds n)) by (apply map_ext_in; exact HP).
    rewrite E. destruct (ready_out _ _ _ R) as [O _]. auto.
  - intros n Hn Ho. destruct (H3 n Hn Ho) as (s & Es & R). exists s. destruct (ready_out _ _ _ R) as [O _]. auto.
  - intros n Hn. destruct (H1 n Hn) as (s & Es & Hc & _). eauto.
  - assert (Q : quiet st2 val1).
    { intros n Hn. split; [auto|]. destruct (in_dec Nat.eq_dec n ns) as [Hi|Hi]; [now apply C|]. destruct (D n Hi) as [-> _]. now apply H3. }
    exists st2. split; [|exact Q]. unfold commit_all, settled. rewrite A. cbn [rbind]. apply chk_true. apply (no_diff_still st2 val1); auto. apply ns_live.
Qed.
Lemma reverted mid :
  (forall n, In n ns -> exists s, mid n = Some s /\ pre_commit n s /\ pre_revert n s) -> (forall n, live n -> ~ In n ns -> exists s, mid n = Some s /\ ready val0 n s) ->
  exists st2, revert_all dbg N g mid ns = Ok st2 /\ quiet st2 val0.
Proof.
  intros H1 H3.
  destruct (sweep veqb N G F start step g WM ns Nd ns_live ns_up So (fun n => vn_revert (N n)) (fun n p => p = still (val0 n)) pre_revert (fun n s _ _ => ready val0 n s)) with (st := mid) (P0 := fun n => still (val0 n)) as (st2 & P & A & _ & C & D).
  - intros n s P Hn (c & Ec & R) HP. exists c, (still (val0 n)). assert (E : map P (preds n) = map (fun m => still (val0 m)) (preds n)) by (apply map_ext_in; exact HP).
    rewrite E. destruct (ready_out _ _ _ R) as [O _]. auto.
  - intros n Hn Ho. destruct (H3 n Hn Ho) as (s & Es & R). exists s. destruct (ready_out _ _ _ R) as [O _]. auto.
  - intros n Hn. destruct (H1 n Hn) as (s & Es & _ & Hc). eauto.
  - assert (Q : quiet st2 val0).
    { intros n Hn. split; [apply Q0; auto|]. destruct (in_dec Nat.eq_dec n ns) as [Hi|Hi]; [now apply C|]. destruct (D n Hi) as [-> _]. now apply H3. }
    exists st2. split; [|exact Q]. unfold revert_all, settled. rewrite A. cbn [rbind]. apply chk_true. apply (no_diff_still st2 val0); auto. apply ns_live.
Qed.
End Round.

Lemma propose_ok dbg st val0 sources st1 dv val1 accept : quiet st val0 -> moved N step g sources st st1 -> decided N g st1 dv -> evaluation F g dv val1 ->
  exists mid st2, propose dbg N g (repeat false (length (gnodes g))) sources accept st1 = Ok (repeat false (length (gnodes g)), st2) /\
    (forall n, live n -> exists p, pin_of N g mid n = Some p /\ pin_ok veqb (vn_shape (N n)) (val0 n) p /\ pview p = val1 n) /\
    quiet st2 (if accept mid then val1 else val0) /\ exists ns, descendants g (repeat false (length (gnodes g))) sources = Some (repeat false (length (gnodes g)), ns) /\ propagate_all N g st1 ns = Ok mid.
Proof.
  intros Q0 Mv Dd E0. pose proof WM as ((ops & Hh) & Gs & Ac & _). pose proof Mv as (Ns & Inc & _).
  destruct (C15_descendants ops g sources Hh Gs) as (ns & Ed & Hns & Nd & So); auto.
  - intros s Hs. apply (wf_di _ (wm_WF veqb N G F start step g WM)). auto.
  - intros s k Hs Hk R. assert (Hd : is_decision g k = true) by (apply is_dec_spec; auto). apply clos_trans_tn1 in R. assert (exists y, edge g y k) as (y & _ & Hy) by (inversion R; subst; eauto). rewrite (dec_pre k Hd) in Hy. destruct Hy.
  - destruct (propagated st st1 val0 val1 dv sources Q0 Mv Dd E0 ns Hns Nd So) as (mid & P & Ep & Hp & H1 & H2).
    exists mid. unfold propose. rewrite Ed, Ep. cbn [rbind].
    assert (Ha : forall n, live n -> exists p, pin_of N g mid n = Some p /\ pin_ok veqb (vn_shape (N n)) (val0 n) p /\ pview p = val1 n).
    { intros n Hn. destruct (Hp n Hn) as (A & B & _ & C). exists (P n). auto. }
    destruct (accept mid).
    + destruct (committed dbg st st1 val0 val1 dv sources Q0 Mv Dd E0 ns Hns Nd So mid) as (st2 & Ec & Q); auto; [intros n Hn; destruct (Hp n Hn) as (_ & A & _ & <-); apply A|].
      exists st2. rewrite Ec. cbn [rbind]. split; [reflexivity|]; split; [exact Ha|]; split; [exact Q|]; eauto.
    + destruct (reverted dbg st st1 val0 val1 sources Q0 Mv ns Hns Nd So mid) as (st2 & Ec & Q); auto.
      exists st2. rewrite Ec. cbn [rbind]. split; [reflexivity|]; split; [exact Ha|]; split; [exact Q|]; eauto.
Qed.

Lemma reachable_quiet dbg st : reachable N F start step g dbg st -> exists dv val, evaluation F g dv val /\ quiet st val.
Proof.
  induction 1 as [st0 dv val st Hs He Hi|st sources st1 dv val accept marks st2 Hr (dv0 & val0 & He0 & Hq) Hm Hd He Hp].
  - exists dv, val. destruct (init_ok st0 dv val Hs He) as (st' & E & Q). rewrite E in Hi. injection Hi as <-. auto.
  - destruct (propose_ok dbg st val0 sources st1 dv val accept Hq Hm Hd He) as (mid & st' & E & _ & Q & _). rewrite E in Hp. assert (st' = st2) by congruence. subst st'. destruct (accept mid); eauto.
Qed.
End P.
