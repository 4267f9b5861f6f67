From Verif Require Import Base GraphModel GraphSpec GraphProofs GraphProofs2 GraphProofs3 LockModel LockSpec LockProofs LockProofs2.
From Coq Require Import Relations Permutation.

Lemma Forall_firstn {A} (P : A -> Prop) k l : Forall P l -> Forall P (firstn k l).
Proof. intros H. revert k. induction H as [|x l Hx H IH]; intros [|k]; cbn; auto. Qed.

Lemma vresize_length {A} k (d : A) l : length (vresize k d l) = k.
Proof. unfold vresize. rewrite app_length, firstn_length, repeat_length. lia. Qed.

Section R.
Context {S : Type}.
Variable ninit : nat -> list S -> S.
Variable kind : nat -> nat.
Notation model := (model S).
Notation LI := (LI ninit).

(** Reading. *)
Lemma rec_init_len g N fuel : (forall n k, tidx g n = Some k -> In n (gnodes g) -> k < N) -> WF g ->
  forall st n st', In n (gnodes g) -> recursive_initialize ninit g fuel st n = Ok st' -> length st <= N -> length st' <= N.
Proof.
  intros HN H. induction fuel as [|fuel IH]; intros st n st' Hn E L; cbn [recursive_initialize] in E; [discriminate E|].
  destruct (tidx g n) as [k|] eqn:Ek; [|discriminate E]. pose proof (HN n k Ek Hn) as Hk.
  set (st0 := if length st <=? k then grow_state (k + 1) st else st) in *.
  assert (L0 : length st0 <= N).
  { unfold st0. destruct (Nat.leb_spec (length st) k); auto. unfold grow_state. rewrite app_length, repeat_length. lia. }
  assert (Hrec : forall ps st1 st2, (forall p, In p ps -> In p (gnodes g)) -> length st1 <= N ->
    rfold (recursive_initialize ninit g fuel) st1 ps = Ok st2 -> length st2 <= N).
  { induction ps as [|p ps IHp]; intros st1 st2 Hps L1 E1; cbn [rfold] in E1; [now injection E1 as <-|].
    destruct (recursive_initialize ninit g fuel st1 p) as [st3| |] eqn:E3; try discriminate E1.
    eapply IHp; [|eapply IH; [|exact E3|exact L1]|exact E1]; [intros q Hq; apply Hps; now right|apply Hps; now left]. }
  assert (Hgo : match rfold (recursive_initialize ninit g fuel) st0 (oget (gpred g) n) with
                | Ok st'' => init_node ninit g st'' n | Throw => Throw | UB => UB end = Ok st' -> length st' <= N).
  { destruct (rfold _ _ _) as [st1| |] eqn:E1; intros E2; try discriminate E2.
    apply Hrec in E1; auto; [|intros p Hp; now apply (pred_in g p n)].
    unfold init_node in E2. rewrite Ek in E2. destruct (all_some _); [|discriminate E2].
    destruct (k <? length st1); [|discriminate E2]. injection E2 as <-. now rewrite lset_length. }
  destruct (nth_error st0 k) as [[x|]|]; auto. now injection E as <-.
Qed.

Lemma read_spec m n i st : LI m -> In n (gnodes (mg m)) -> is_locked m = true \/ In n (gdec (mg m)) -> nth_error (mstates m) i = Some st ->
  exists st' x, read_state ninit m n i = Some (Model (mg m) (mlocks m) (lset i st' (mstates m)), Some x) /\
    LI (Model (mg m) (mlocks m) (lset i st' (mstates m))) /\ state_of (mg m) st' n = Some x /\
    IP (mg m) ninit st [n] st' /\ value ninit (mg m) (state_of (mg m) st) n x.
Proof.
  intros L Hn Hld Hst. pose proof L as [Hi Hs Hl Hc]. pose proof (inc_wf _ Hi) as H.
  rewrite Forall_forall in Hl, Hc. pose proof (nth_error_In _ _ Hst) as Hin. specialize (Hl _ Hin). specialize (Hc _ Hin).
  assert (Hk : exists k, tidx (mg m) n = Some k).
  { destruct Hld as [Hlk|Hd]; [|destruct (tidx_dec_in _ n H Hd) as [k [Ek _]]; eauto].
    rewrite Hlk in Hs. destruct (tidx_live _ H Hs n Hn) as [k [Ek _]]. eauto. }
  destruct Hk as [k Ek]. pose proof (tidx_room ninit m n k L Hn Ek) as Lk.
  assert (Hal : alive (mg m) n = true) by now apply (wf_al _ H).
  assert (Main : exists st' x, recursive_initialize ninit (mg m) (fuel_of m) st n = Ok st' /\ coh1 ninit (mg m) st' /\
     state_of (mg m) st' n = Some x /\ IP (mg m) ninit st [n] st' /\ value ninit (mg m) (state_of (mg m) st) n x).
  { destruct (is_locked m) eqn:EL.
    - assert (Lk' : k < length (gnodes (mg m))) by (destruct (tidx_live _ H Hs n Hn) as [j [Ej [_ Lj]]]; congruence).
      destruct (rec_init_spec (mg m) H Hs ninit (Inc_acyclic _ Hi) (fuel_of m) st n k Hn Ek) as [st' [E [P _]]]; [unfold fuel_of; lia|].
      assert (Hx : state_of (mg m) st' n <> None).
      { destruct (state_of (mg m) st n) as [y|] eqn:Ey.
        - rewrite (ip_old _ _ _ _ _ P n y Hn Ey). discriminate.
        - destruct (ip_new _ _ _ _ _ P n) as [ss [_ E']]; [apply nd_self; [left; auto|auto]|]. congruence. }
      destruct (state_of (mg m) st' n) as [x|] eqn:Ex; [|congruence]. exists st', x.
      assert (C' : coh1 ninit (mg m) st') by (eapply coh_IP; eauto).
      repeat (split; auto). eapply IP_value; eauto using Inc_acyclic.
    - pose proof (index_dec _ n k H Hs Hn Ek) as Hd.
      assert (Hcoh : forall s, coh1 ninit (mg m) s) by (intros s; apply coh_short; auto; congruence).
      unfold fuel_of. rewrite Nat.add_1_r. cbn [recursive_initialize]. rewrite Ek.
      set (st0 := if length st <=? k then grow_state (k + 1) st else st).
      assert (Hg0 : forall q, state_of (mg m) st0 q = state_of (mg m) st q).
      { intros q. unfold st0. destruct (_ <=? _); auto. apply get_grow. }
      assert (L0 : k < length st0 /\ length st <= length st0).
      { unfold st0. destruct (Nat.leb_spec (length st) k); [|lia]. unfold grow_state. rewrite app_length, repeat_length. lia. }
      assert (Hn0 : state_of (mg m) st n = match nth_error st0 k with Some x => x | None => None end).
      { rewrite <- Hg0. unfold state_of. now rewrite Ek. }
      destruct (nth_error st0 k) as [[y|]|] eqn:Ey.
      + exists st0, y. split; auto. split; auto. split; [now rewrite Hg0|]. split.
        * assert (Hneed : forall q, needed (mg m) st [n] q -> False) by (induction 1 as [t [<- | []] E|]; congruence || auto).
          constructor; [intros q x Hq E; now rewrite Hg0|intros q Hq E; left; now rewrite <- Hg0|intros q Hq; destruct (Hneed q Hq)|lia].
        * pose proof (v_dec ninit (mg m) (state_of (mg m) st) n Hd) as V. now rewrite Hn0 in V.
      + rewrite (wf_dp _ H n Hd). cbn [rfold]. unfold init_node. rewrite Ek, (wf_dp _ H n Hd). cbn [map all_some].
        destruct (Nat.ltb_spec k (length st0)); [|lia]. exists (lset k (Some (ninit n [])) st0), (ninit n []).
        assert (Hset : forall q, In q (gnodes (mg m)) -> q <> n -> state_of (mg m) (lset k (Some (ninit n [])) st0) q = state_of (mg m) st q).
        { intros q Hq Hne. rewrite <- Hg0. unfold state_of. destruct (tidx (mg m) q) as [j|] eqn:Ej; auto.
          rewrite nth_error_lset_neq; auto. intros <-. apply Hne.
          pose proof (index_dec _ q k H Hs Hq Ej) as Hqd.
          destruct (tidx_dec_in _ q H Hqd) as [j [Ej' [_ Nj']]]. destruct (tidx_dec_in _ n H Hd) as [j2 [Ej2 [_ Nj2]]]. congruence. }
        assert (Hnn : state_of (mg m) (lset k (Some (ninit n [])) st0) n = Some (ninit n [])).
        { unfold state_of. now rewrite Ek, nth_error_lset_eq. }
        split; auto. split; auto. split; auto. split.
        * assert (Hneed : forall q, needed (mg m) st [n] q -> q = n).
          { induction 1 as [t [<- | []] _|p q _ -> [_ Ed] _]; auto. rewrite (wf_dp _ H n Hd) in Ed. destruct Ed. }
          constructor.
          -- intros q x Hq E. destruct (Nat.eq_dec q n) as [-> |Hne]; [congruence|]. now rewrite Hset.
          -- intros q Hq E. destruct (Nat.eq_dec q n) as [-> |Hne]; [|left; now rewrite <- Hset].
             right. apply nd_self; [now left|auto].
          -- intros q Hq. apply Hneed in Hq. subst q. exists []. rewrite (wf_dp _ H n Hd). auto.
          -- rewrite lset_length. lia.
        * pose proof (v_dec ninit (mg m) (state_of (mg m) st) n Hd) as V. now rewrite Hn0 in V.
      + apply nth_error_None in Ey. lia. }
  destruct Main as (st' & x & E & C' & Ex & P & V). exists st', x.
  assert (Er : read_state ninit m n i = Some (Model (mg m) (mlocks m) (lset i st' (mstates m)), Some x)).
  { unfold read_state. rewrite Hal. cbn [negb]. unfold index_of at 1. rewrite Ek, Hst, E. unfold stored, index_of. unfold state_of in Ex. rewrite Ek in Ex |- *.
    rewrite Ex. now destruct (is_locked m). }
  split; auto. split; [|auto]. apply LI_put; auto.
  eapply rec_init_len; [|exact H|exact Hn|exact E|exact Hl]. intros q j Ej Hq. eapply tidx_room; eauto.
Qed.

Lemma LI_read m n i m' r : LI m -> read_state ninit m n i = Some (m', r) -> LI m'.
Proof.
  intros L E. pose proof L as [Hi Hs Hl Hc]. pose proof (inc_wf _ Hi) as H.
  assert (Ha : alive (mg m) n = true) by (unfold read_state in E; destruct (alive (mg m) n); [auto|discriminate E]).
  assert (Hn : In n (gnodes (mg m))) by now apply (wf_al _ H).
  destruct (nth_error (mstates m) i) as [st|] eqn:Est.
  2:{ unfold read_state in E. rewrite Ha, Est in E. cbn [negb] in E. destruct (is_locked m), (index_of m n); now injection E as <- <-. }
  destruct (is_locked m) eqn:EL.
  - destruct (read_spec m n i st L Hn (or_introl EL) Est) as (st' & x & E' & L' & _). congruence.
  - destruct (index_of m n) as [k|] eqn:Ek.
    + destruct (read_spec m n i st L Hn) as (st' & x & E' & L' & _); auto; [right; eapply index_dec; eauto|]. congruence.
    + unfold read_state in E. rewrite Ha, EL, Ek in E. cbn [negb] in E. now injection E as <- <-.
Qed.

(** Initialising all. *)
Lemma LI_initialize m m' b : LI m -> initialize_all ninit m = Some (m', b) -> LI m'.
Proof.
  intros L. pose proof L as [Hi Hs Hl Hc]. pose proof (inc_wf _ Hi) as H. unfold initialize_all.
  destruct (is_locked m) eqn:EL; cbn [negb]; [|intros E; injection E as <- <-; auto].
  assert (Gen : forall sts acc, Forall (fun st => length st <= length (gnodes (mg m))) sts -> Forall (coh1 ninit (mg m)) sts ->
    Forall (fun st => length st <= length (gnodes (mg m))) acc -> Forall (coh1 ninit (mg m)) acc ->
    exists out, rfold (fun acc st => match initialize_state ninit (mg m) (vresize (length (gnodes (mg m))) None st) with
       | Ok st => Ok (acc ++ [st]) | Throw => Throw | UB => UB end) acc sts = Ok out /\
      Forall (fun st => length st <= length (gnodes (mg m))) out /\ Forall (coh1 ninit (mg m)) out).
  { induction sts as [|st sts IH]; intros acc F1 F2 F3 F4; [exists acc; auto|].
    inversion F1 as [|? ? L1 F1']; subst. inversion F2 as [|? ? C1 F2']; subst. cbn [rfold]. rewrite vresize_grow by auto.
    destruct (init_state_spec (mg m) H Hs ninit (Inc_acyclic _ Hi) (grow_state (length (gnodes (mg m))) st)) as [full [E2 [L2 P2]]].
    { unfold grow_state. rewrite app_length, repeat_length. lia. }
    rewrite E2. apply IH; auto.
    - apply Forall_app. split; auto. constructor; auto. rewrite L2. unfold grow_state. rewrite app_length, repeat_length. lia.
    - apply Forall_app. split; auto. constructor; auto. eapply coh_IP; [auto|exact C1|].
      apply (IP_ext (mg m) Hs ninit st (grow_state (length (gnodes (mg m))) st)); auto.
      + intros; apply get_grow.
      + unfold grow_state. rewrite app_length. lia.
      + exact P2. }
  unfold room in Hl. rewrite EL in Hl. destruct (Gen (mstates m) [] Hl Hc (Forall_nil _) (Forall_nil _)) as (out & E & F1 & F2).
  rewrite E. intros E'. injection E' as <- <-. constructor; cbn [mg mlocks mstates]; auto.
  - rewrite Hs. symmetry. exact EL.
  - unfold room, is_locked in *. cbn [mlocks mg]. now rewrite EL.
Qed.

(** Locking and unlocking. *)
Lemma lock_spec m : LI m -> exists g, lock m = Some (Model g (mlocks m + 1) (mstates m), true) /\ LI (Model g (mlocks m + 1) (mstates m)) /\
  (is_locked m = true -> g = mg m) /\ gdec g = gdec (mg m).
Proof.
  intros [Hi Hs Hl Hc]. pose proof (inc_wf _ Hi) as H. unfold lock.
  assert (EL' : forall g sts, is_locked (@Model S g (mlocks m + 1) sts) = true).
  { intros g sts. unfold is_locked. cbn [mlocks]. apply Nat.ltb_lt. lia. }
  destruct (is_locked m) eqn:EL.
  - unfold topological_sort. rewrite Hs. exists (mg m). split; auto. split; [|auto]. constructor; auto; cbn [mg mlocks mstates].
    + now rewrite EL'.
    + unfold room in *. rewrite EL'. rewrite EL in Hl. exact Hl.
  - destruct (sort_Inc _ Hi Hs) as [tp [E Ho]]. rewrite E. eexists. split; [reflexivity|].
    pose proof (sort_step_Inc _ _ Hi E) as Hi'. split; [|split; [discriminate|reflexivity]].
    unfold room in Hl. rewrite EL in Hl. constructor; auto; unfold room; rewrite ?EL'; cbn [mg mlocks mstates]; auto.
    + eapply Forall_impl; [|exact Hl]. cbn beta. intros st L. pose proof (dec_le_nodes _ (inc_wf _ Hi')) as D. cbn [gdec with_order] in D. lia.
    + eapply Forall_impl; [|exact Hl]. cbn beta. intros st L. apply coh_short; [apply Hi'|]. intros _. exact L.
Qed.

Lemma LI_unlock m : LI m -> LI (unlock m).
Proof.
  intros L. pose proof L as [Hi Hs Hl Hc]. unfold unlock. destruct (is_locked m) eqn:EL; cbn [negb]; auto.
  unfold is_locked in EL. apply Nat.ltb_lt in EL. cbn [mlocks mg mstates].
  destruct (Nat.ltb_spec (mlocks m - 1) 1) as [H1|H1]; unfold is_locked; cbn [mlocks mg mstates].
  - destruct (Nat.ltb_spec 0 (mlocks m - 1)); [lia|]. cbn [negb]. apply LI_unsorted; try lia.
    + apply (step_Inc (mg m) GReset); auto.
    + unfold reset_topological_sort. now rewrite Hs.
    + apply Forall_forall. intros st Hst. apply in_map_iff in Hst as [s [<- _]]. rewrite vresize_length. auto.
  - destruct (Nat.ltb_spec 0 (mlocks m - 1)); [|lia]. cbn [negb]. constructor; auto; cbn [mg mlocks mstates].
    + unfold is_locked. cbn [mlocks]. destruct (Nat.ltb_spec 0 (mlocks m - 1)); [auto|lia].
    + unfold room, is_locked in *. cbn [mlocks mg]. destruct (Nat.ltb_spec 0 (mlocks m - 1)); [|lia].
      destruct (Nat.ltb_spec 0 (mlocks m)); [auto|lia].
Qed.

(** Every step. *)
Lemma LI_step m o m' b : LI m -> fits m o -> m_step ninit kind m o = Some (m', b) -> LI m'.
Proof.
  intros L Hf E. pose proof L as [Hi Hs Hl Hc]. pose proof (inc_wf _ Hi) as H.
  assert (Hadd : forall d r ps, (d = true -> ps = []) -> on_graph m (emplace_node (mg m) d r ps) = Some (m', b) ->
             (forall g', emplace_node (mg m) d r ps = Ok g' -> Inc g') -> LI m').
  { intros d r ps Hd E1 Hg. unfold on_graph in E1. destruct (emplace_node (mg m) d r ps) as [g'| |] eqn:Eg; [| |discriminate E1].
    - injection E1 as <- <-. specialize (Hg _ eq_refl). unfold emplace_node in Eg.
      destruct (gsorted (mg m)) eqn:Es; [discriminate Eg|]. destruct (negb _); [discriminate Eg|].
      injection Eg as Eg. apply LI_unsorted; auto; [now subst g'| |].
      + unfold is_locked in Hs. destruct (mlocks m); auto. discriminate Hs.
      + unfold room in Hl. rewrite <- Hs in Hl. eapply Forall_impl; [|exact Hl]. cbn beta. intros st Lst.
        subst g'. cbn [gdec]. destruct d; rewrite ?app_length; lia.
    - now injection E1 as <- <-. }
  destruct o as [ | | |ps|n p| |n|n|n c|k| |n i|n i|n i v|fk sts]; cbn [m_step] in E.
  - destruct (lock_spec m L) as (g & E' & L' & _). congruence.
  - injection E as <- <-. now apply LI_unlock.
  - apply (Hadd true true []); auto. intros g' Eg. apply (step_Inc (mg m) GDecision); auto.
  - apply (Hadd false true ps); auto; [discriminate|]. intros g' Eg. apply (step_Inc (mg m) (GAdd true ps)); auto.
  - destruct Hf.
  - destruct (is_locked m) eqn:EL; [now injection E as <- <-|]. unfold on_graph in E.
    destruct (g_step (mg m) (GRemove false)) as [g'| |] eqn:Eg; [|now injection E as <- <-|discriminate E].
    injection E as <- <-. pose proof (step_Inc _ (GRemove false) _ Hi eq_refl Eg) as Hi'.
    assert (Hd : gsorted g' = false /\ gdec g' = gdec (mg m)).
    { cbn [g_step] in Eg. destruct (remove_unused_nodes (mg m) false) as [[g2 r]| |] eqn:E2; try discriminate Eg. injection Eg as ->.
      unfold remove_unused_nodes in E2. destruct (sort_Inc _ Hi Hs) as [tp [Es _]]. rewrite Es in E2. cbv zeta in E2.
      destruct (fold_left _ _ _) as [su al]. injection E2 as <- _. unfold reset_topological_sort. cbn [gsorted negb gdec with_order]. auto. }
    destruct Hd as [Hd1 Hd2]. apply LI_unsorted; auto.
    + unfold is_locked in EL. destruct (mlocks m); auto. discriminate EL.
    + rewrite Hd2. unfold room in Hl. now rewrite EL in Hl.
  - unfold on_graph in E. destruct (g_step (mg m) (GObjective n)) as [g'| |] eqn:Eg; [|now injection E as <- <-|discriminate E].
    injection E as <- <-. pose proof (step_Inc _ (GObjective n) _ Hi eq_refl Eg) as Hi'. cbn [g_step] in Eg. unfold set_objective in Eg.
    destruct (alive _ _); [|discriminate Eg]. injection Eg as <-. apply LI_same with (mg m); auto. now destruct m.
  - unfold on_graph in E. destruct (g_step (mg m) (GConstraint n)) as [g'| |] eqn:Eg; [|now injection E as <- <-|discriminate E].
    injection E as <- <-. pose proof (step_Inc _ (GConstraint n) _ Hi eq_refl Eg) as Hi'. cbn [g_step] in Eg. unfold add_constraint in Eg.
    destruct (alive _ _); [|discriminate Eg]. injection Eg as <-. apply LI_same with (mg m); auto. now destruct m.
  - unfold on_graph in E. destruct (g_step (mg m) (GListen n c)) as [g'| |] eqn:Eg; [|now injection E as <- <-|discriminate E].
    injection E as <- <-. pose proof (step_Inc _ (GListen n c) _ Hi eq_refl Eg) as Hi'. cbn [g_step] in Eg. unfold set_listen in Eg.
    destruct (alive _ _); [|discriminate Eg]. injection Eg as <-. apply LI_same with (mg m); auto. now destruct m.
  - injection E as <- <-. constructor; auto; cbn [mg mstates].
    + change (room (Model (mg m) (mlocks m) (vresize k [] (mstates m)))) with (room m). unfold vresize. apply Forall_app. split; [now apply Forall_firstn|].
      apply Forall_forall. intros st Hst. apply repeat_spec in Hst. subst st. cbn. lia.
    + unfold vresize. apply Forall_app. split; [now apply Forall_firstn|].
      apply Forall_forall. intros st Hst. apply repeat_spec in Hst. subst st. apply coh_short; auto. cbn. lia.
  - eapply LI_initialize; eauto.
  - destruct (read_state ninit m n i) as [[m1 r]|] eqn:Er; [|discriminate E].
    pose proof (LI_read _ _ _ _ _ L Er). destruct r; now injection E as <- <-.
  - destruct (alive (mg m) n) eqn:Ea; [|discriminate E]. apply (wf_al _ H) in Ea.
    destruct (nth_error (mstates m) i) as [st|] eqn:Est.
    + destruct (reset_spec ninit m n i st L Ea Est) as (st' & E' & _ & L1 & C1 & _). rewrite E' in E. injection E as <- <-. now apply LI_put.
    + unfold reset_state in E. rewrite Est in E. now injection E as <- <-.
  - destruct (existsb _ _) eqn:Ea; [|discriminate E]. apply existsb_In in Ea.
    destruct (nth_error (mstates m) i) as [st|] eqn:Est.
    + destruct (set_spec ninit m n i v st L Ea Est) as (st' & E' & L1 & _). congruence.
    + unfold set_state, reset_state in E. rewrite Est in E. now injection E as <- <-.
  - unfold states_from_file in E. destruct (forallb _ _); injection E as <- <-; auto. cbn [fits] in Hf.
    constructor; auto; cbn [mg mstates].
    + change (room (Model (mg m) (mlocks m) sts)) with (room m). eapply Forall_impl; [|exact Hf]. cbn beta. intros st Lst.
      unfold room. pose proof (dec_le_nodes _ H). destruct (is_locked m); lia.
    + eapply Forall_impl; [|exact Hf]. cbn beta. intros st Lst. now apply coh_short.
Qed.

Lemma hist_LI ops m : m_hist ninit kind ops m -> LI m.
Proof.
  induction 1 as [|ops m o m' b Hh IH Hf E]; [|eapply LI_step; eauto].
  apply LI_unsorted; auto. apply empty_Inc.
Qed.

Lemma hist_locks ops (m : model) : m_hist ninit kind ops m -> mlocks m = held ops 0.
Proof.
  intros Hh.
  assert (Happ : forall (ops : list (mop S)) o d, held (ops ++ [o]) d = held [o] (held ops d)).
  { induction ops0 as [|o' r IH]; intros o d; auto. destruct o'; cbn [app held]; apply IH. }
  induction Hh as [|ops m o m' b Hh IH Hf E]; [reflexivity|]. rewrite Happ, <- IH. clear IH.
  pose proof (hist_LI _ _ Hh) as L.
  destruct o as [ | | |ps|n p| |n|n|n c|k| |n i|n i|n i v|fk sts]; cbn [held]; cbn [m_step] in E;
    try (unfold on_graph in E; destruct (g_step _ _); try discriminate E; injection E as <- <-; reflexivity).
  - destruct (lock_spec m L) as (g & E' & _). rewrite E' in E. now injection E as <- <-.
  - injection E as <- <-. unfold unlock, is_locked. destruct (Nat.ltb_spec 0 (mlocks m)); cbn [negb mlocks]; [|lia].
    destruct (Nat.ltb_spec (mlocks m - 1) 1); cbn [mlocks negb]; destruct (Nat.ltb_spec 0 (mlocks m - 1)); cbn [negb mlocks]; auto.
  - destruct (is_locked m); [now injection E as <- <-|]. unfold on_graph in E. destruct (g_step _ _); try discriminate E; now injection E as <- <-.
  - now injection E as <- <-.
  - unfold initialize_all in E. destruct (negb _); [now injection E as <- <-|]. destruct (rfold _ _ _); try discriminate E. now injection E as <- <-.
  - destruct (read_state ninit m n i) as [[m1 r]|] eqn:Er; [|discriminate E].
    assert (m' = m1) by (destruct r; congruence). subst m1. clear E. unfold read_state in Er.
    destruct (negb _); [discriminate Er|].
    assert (Hm : Some (m, @None S) = Some (m', r) -> mlocks m' = mlocks m) by congruence.
    destruct (is_locked m), (index_of m n), (nth_error (mstates m) i) as [st|]; auto;
      destruct (recursive_initialize _ _ _ _ _) as [st'| |]; auto; try discriminate Er; destruct (stored m st' n); try discriminate Er; now injection Er as <- <-.
  - destruct (alive _ _); [|discriminate E]. unfold reset_state in E. destruct (nth_error _ _); [|now injection E as <- <-].
    destruct (index_of _ _); [|now injection E as <- <-]. destruct (recursive_reset _ _ _ _); try discriminate E. now injection E as <- <-.
  - destruct (existsb _ _) eqn:Ea; [|discriminate E]. apply existsb_In in Ea.
    destruct (nth_error (mstates m) i) as [st|] eqn:Est.
    + destruct (set_spec ninit m n i v st L Ea Est) as (st' & E' & _). rewrite E' in E. now injection E as <- <-.
    + unfold set_state, reset_state in E. rewrite Est in E. now injection E as <- <-.
  - unfold states_from_file in E. destruct (forallb _ _); now injection E as <- <-.
Qed.
End R.
