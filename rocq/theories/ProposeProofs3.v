From Coq Require Import Relations Permutation.
From Verif Require Import Base Num SliceModel StateDataModel StateDataSpec StateDataProofs Replay NodeSpec NodeLib NumbersModel NumbersSpec NumbersProofs NumbersProps
  CollectionsModel CollectionsSpec CollectionsProofs ShapeSpec GraphModel GraphSpec PermSpec ViewModel ViewSpec ProposeModel ProposeSpec.
Local Open Scope nat_scope.

(** ** From the contracts of the classes *)
Section Gen.
Context {V : Type}.
Variable veqb : V -> V -> bool.
Lemma vnode_computes N F Gs : vnode_ok veqb N F -> computes veqb N Gs (fun _ => True) F.
Proof.
  intros [(clean & C1 & C2 & C3)]. exists clean. split; [exact C1|]. split.
  - intros ins s Hc. destruct (C2 ins s Hc) as (v & A & B). eauto.
  - intros ins s v pins v' H1 H2 H3 H4 _ H5. destruct (C3 ins s v pins v' H1 H2 H3 H4 H5) as (s' & A & (p & B) & C). exists s'. split; [exact A|]. split; [|exact C]. exists p. tauto.
Qed.
Lemma node_computes N F Gs : node_ok veqb N F -> computes veqb (lift N) Gs (fun _ => True) F.
Proof.
  intros [(clean & C1 & C2 & C3)]. exists clean. split; [exact C1|]. split.
  - intros ins s Hc. destruct (C2 ins s Hc) as (v & A & B). eauto.
  - intros ins s v pins v' H1 H2 H3 H4 _ H5. destruct (C3 ins s v pins v' H1 H2 H3 H4 H5) as (s' & A & (p & B) & C & D). exists s'. split; [exact A|]. split; [exists p; tauto|]. split; [|exact D]. eexists. split; [reflexivity|exact C].
Qed.
Lemma node_if_computes N F Gs (P : list (pin V) -> Prop) : (forall pins, Forall2 (fun (G : pin V -> Prop) p => G p) Gs pins -> P pins) -> node_ok_if veqb P N F -> computes veqb (lift N) Gs (fun _ => True) F.
Proof.
  intros HP [(clean & C1 & C2 & C3)]. exists clean. split; [exact C1|]. split.
  - intros ins s Hc. destruct (C2 ins s Hc) as (v & A & B). eauto.
  - intros ins s v pins v' H1 H2 H3 H4 H5 H6. destruct (C3 ins s v pins v' H1 H2 H3 H4 (HP _ H5) H6) as (s' & A & (p & B) & C & D). exists s'. split; [exact A|]. split; [exists p; tauto|]. split; [|exact D]. eexists. split; [reflexivity|exact C].
Qed.
Lemma constant_computes shape values : fits shape values -> computes veqb (constant_vnode shape values) [] (fun p => p = still values) (constant_fun values).
Proof.
  intros Hf. exists (fun ins _ => ins = []). cbn [vn_pre vn_shape vn_ST vn_init vn_out vn_prop vn_commit vn_revert constant_vnode]. split; [|split].
  - intros ins v H E. inversion H; subst. cbn [constant_fun] in E. injection E as <-. split; [exact Hf|]. exists tt. auto.
  - intros ins s ->. exists values. auto.
  - intros ins s v pins v' -> E H _ _ E'. cbn [combine] in H. inversion H; subst. cbn [constant_fun map] in *. injection E as <-. injection E' as <-. exists s. split; [reflexivity|].
    split; [exists (still values); split; [reflexivity|]; split; [reflexivity|]; split; [split; cbn [still pview pdiff psdiff]; auto; lia|reflexivity]|]. split; eexists; (split; [reflexivity|reflexivity]).
Qed.
Lemma decides_weaken (D : vnode V) (G G' : pin V -> Prop) start step : (forall p, G p -> G' p) -> decides veqb D G start step -> decides veqb D G' start step.
Proof.
  intros H (clean & C1 & C2 & C3). exists clean. split; [exact C1|]. split.
  - intros v s Hc. destruct (C2 v s Hc) as (A & B & C). auto.
  - intros v s s' Hc Hr. destruct (C3 v s s' Hc Hr) as (A & (p & B1 & B2 & B3 & B4) & C). split; [exact A|]. split; [|exact C]. exists p. auto.
Qed.
(** A condition on the moves that follows from the guarantees of the predecessors and from the contract. *)
Lemma node_given_computes N F Gs (P : list (pin V) -> Prop) :
  (forall ins pins, length (nd_pre N) = length ins -> Forall2 (fun si p => pin_ok veqb (fst si) (snd si) p) (combine (nd_pre N) ins) pins -> Forall2 (fun (G : pin V -> Prop) p => G p) Gs pins -> P pins) ->
  node_ok_if veqb P N F -> computes veqb (lift N) Gs (fun _ => True) F.
Proof.
  intros HP [(clean & C1 & C2 & C3)]. exists clean. split; [exact C1|]. split.
  - intros ins s Hc. destruct (C2 ins s Hc) as (v & A & B). eauto.
  - intros ins s v pins v' H1 H2 H3 H4 H5 H6. destruct (C3 ins s v pins v' H1 H2 H3 H4 (HP _ _ H4 H3 H5) H6) as (s' & A & (p & B) & C & D). exists s'. split; [exact A|]. split; [exists p; tauto|]. split; [|exact D]. eexists. split; [reflexivity|exact C].
Qed.
End Gen.

Notation touched D := (fun u : update num => forall x, uold u = Some x \/ uval u = Some x -> D x).
Lemma touched_change (D : num -> Prop) i x y : D x -> D y -> touched D (change i x y).
Proof. intros Hx Hy z [H|H]; cbn [change uold uval] in H; injection H as <-; auto. Qed.
Lemma change_is i (x y : num) : NodeSpec.is_change (change i x y).
Proof. split; cbn [change uold uval]; discriminate. Qed.

(** ** Integer and binary arrays *)
Section Number.
Variable n : inode.
Hypothesis Hn : constructed n.
Notation D := (whole (ilo n) (ihi n)).
Definition NI (c : list Z) (d : @adata num) : Prop :=
  Inv qeqb (map zq c) d /\ zdom n c /\ (exists l, abuf d = map zq l /\ zdom n l) /\ Forall NodeSpec.is_change (aupd d) /\ Forall (touched D) (aupd d).
Lemma NI_init c : zdom n c -> NI c (a_init (map zq c)).
Proof. intros H. split; [apply Inv_init|]. split; [exact H|]. split; [exists c; auto|]. split; constructor. Qed.
Lemma zdom_D c : zdom n c -> Forall D (map zq c).
Proof. intros [_ H]. induction H as [|z c Hz _ IH]; cbn [map]; constructor; auto. exists z. auto. Qed.
Lemma a_set_log d i x d' b : Forall D (abuf d) -> D x -> a_set qeqb d i x = Some (d', b) -> exists us, aupd d' = aupd d ++ us /\ Forall NodeSpec.is_change us /\ Forall (touched D) us.
Proof.
  intros Hd Hx. unfold a_set. destruct (nth_error (abuf d) i) as [o|] eqn:E; [|discriminate]. destruct (qeqb o x); intros H; injection H as <- _.
  - exists []. rewrite app_nil_r. auto.
  - eexists. split; [reflexivity|]. split; constructor; auto; [apply change_is|]. apply touched_change; auto. rewrite Forall_forall in Hd. apply Hd. eapply nth_error_In; eauto.
Qed.
Lemma NI_step c d d' : NI c d -> number_move n d d' -> NI c d'.
Proof.
  intros (H1 & H2 & (l & H3 & H4) & H5 & H6) (o & b & Ha & Hc & Hr & E). destruct (constructed_ok n Hn) as [Hle Hb].
  assert (HD : Forall D (abuf d)) by (rewrite H3; now apply zdom_D).
  assert (Hlen : length (abuf d) = isize n) by (rewrite H3, map_length; apply H4).
  assert (D01 : ibinary n = true -> D (zq 0) /\ D (zq 1)) by (intros Eb; destruct (Hb Eb) as [-> ->]; split; [exists 0%Z|exists 1%Z]; split; auto; lia).
  assert (Rng : nop_in_range (isize n) o).
  { rewrite <- Hlen. destruct o as [i v|i j|i|i|i| |]; cbn [nop_in_range]; auto; cbn [n_step] in E;
      unfold set_value, exchange, flip, bset, bunset, a_set, a_exchange, a_get in E.
    - destruct (negb _); [discriminate|]. apply nth_error_Some. destruct (nth_error (abuf d) i); [discriminate|discriminate E].
    - split; apply nth_error_Some; destruct (nth_error (abuf d) i); try discriminate; destruct (nth_error (abuf d) j); try discriminate; discriminate E.
    - apply nth_error_Some. destruct (nth_error (abuf d) i); [discriminate|discriminate E].
    - apply nth_error_Some. destruct (nth_error (abuf d) i); [discriminate|discriminate E].
    - apply nth_error_Some. destruct (nth_error (abuf d) i); [discriminate|discriminate E]. }
  destruct (n_step_spec n c l d o H1 H3 H2 H4 Ha Hb Rng) as (c' & l' & Es & [(Et & _)|(d1 & b1 & E1 & I1 & A1 & _)]); [congruence|].
  assert (d1 = d') by congruence. subst d1.
  destruct (zspec_dom n c l c' l' o H2 H4 Ha Hb Es) as [_ Hl']. assert (c' = c).
  { destruct o; cbn [zspec_op] in Es; try congruence;
      repeat match type of Es with (if ?b then _ else _) = _ => destruct b | match ?x with _ => _ end = _ => destruct x end; congruence. }
  subst c'.
  assert (Lg : exists us, aupd d' = aupd d ++ us /\ Forall NodeSpec.is_change us /\ Forall (touched D) us).
  { destruct o as [i v|i j|i|i|i| |]; cbn [n_step nop_allowed] in *; try congruence.
    - unfold set_value in E. destruct (is_valid n (zq v)) eqn:Ev; cbn [negb] in E; [|discriminate]. apply is_valid_iff in Ev. destruct (a_set qeqb d i (zq v)) as [[d2 b2]|] eqn:E2; cbn [of_opt] in E; [|discriminate].
      injection E as -> ->. eapply a_set_log; eauto.
    - unfold exchange, a_exchange in E. destruct (nth_error (abuf d) i) as [x|] eqn:Ei; [|discriminate]. destruct (nth_error (abuf d) j) as [y|] eqn:Ej; [|discriminate].
      rewrite Forall_forall in HD. pose proof (HD _ (nth_error_In _ _ Ei)). pose proof (HD _ (nth_error_In _ _ Ej)).
      destruct (i =? j); [injection E as <- _; exists []; rewrite app_nil_r; auto|]. destruct (qeqb x y); [injection E as <- _; exists []; rewrite app_nil_r; auto|]. injection E as <- _.
      eexists. split; [reflexivity|]. split; [constructor; [apply change_is|]; constructor; [apply change_is|constructor]|constructor; [now apply touched_change|]; constructor; [now apply touched_change|constructor]].
    - unfold flip in E. destruct (a_get d i) as [v|]; [|discriminate]. destruct (a_set qeqb d i (if q2b v then zq 0 else zq 1)) as [[d2 b2]|] eqn:E2; cbn [of_opt] in E; [|discriminate]. injection E as -> ->.
      destruct (D01 Ha). refine (a_set_log d i _ d' b HD _ E2). destruct (q2b v); auto.
    - unfold bset in E. destruct (a_set qeqb d i (zq 1)) as [[d2 b2]|] eqn:E2; cbn [of_opt] in E; [|discriminate]. injection E as -> ->. destruct (D01 Ha). refine (a_set_log d i _ d' b HD _ E2). auto.
    - unfold bunset in E. destruct (a_set qeqb d i (zq 0)) as [[d2 b2]|] eqn:E2; cbn [of_opt] in E; [|discriminate]. injection E as -> ->. destruct (D01 Ha). refine (a_set_log d i _ d' b HD _ E2). auto. }
  destruct Lg as (us & Eu & Lc & Lt). split; [exact I1|]. split; [exact H2|]. split; [exists l'; auto|]. rewrite Eu. split; apply Forall_app; auto.
Qed.

Lemma number_decides shape : dynamic shape = false -> prod shape = Z.of_nat (isize n) ->
  decides qeqb (number_vnode shape n) (within D) (number_start n) (number_move n).
Proof.
  intros Hd Hp. exists (fun v s => exists c, v = map zq c /\ zdom n c /\ s = a_init v).
  assert (Hf : forall l, zdom n l -> fits shape (map zq l)) by (intros l [Hl _]; unfold fits, fits_len; rewrite Hd, map_length; lia).
  unfold dcontract. cbn [vn_shape vn_out vn_prop vn_commit vn_revert vn_ST number_vnode]. split; [|split].
  - intros s (data & Hs). apply number_init_iff in Hs. destruct Hs as (Hl & Hx & ->). destruct (ints_of n data Hx) as (l & -> & Fl). exists (map zq l), l. split; auto. split; auto. split; auto. now rewrite map_length in Hl.
  - intros v s (c & -> & Hc & ->). split; [auto|]. split; [split; [now apply zdom_D|constructor]|]. unfold aout, still, a_init, a_size_diff. cbn [abuf aupd aprev]. now rewrite Z.sub_diag.
  - intros v s s' (c & -> & Hc & ->) R. assert (I : NI c s').
    { apply clos_rt_rtn1 in R. induction R as [|y z St _ IH]; [now apply NI_init|eapply NI_step; eauto]. }
    destruct I as ((Pv & Rp) & _ & (l & Eb & Hl) & Fc & Ft). split; [reflexivity|]. split.
    + eexists. split; [reflexivity|]. cbn [aout pview pdiff psdiff]. split; [|split; [split; [exact (eq_ind_r (fun b => Forall D b) (zdom_D l Hl) Eb)|exact Ft]|]].
      * split; cbn [aout pview pdiff psdiff]; auto; [exact (eq_ind_r (fun b => fits shape b) (Hf l Hl) Eb)|]. unfold a_size_diff. rewrite Pv. reflexivity.
      * eexists. split; [reflexivity|]. exists l. split; [exact Eb|]. split; [exact Hl|reflexivity].
    + exists (a_init (map zq c)). split; [|exists c; auto]. change (vn_revert (number_vnode shape n) s' []) with (of_opt (a_revert (zq 0) s')).
      rewrite (revert_replay qeqb qeqb_spec (zq 0) (map zq c) s' Pv Rp). reflexivity.
Qed.
End Number.

(** ** Lists and sets *)
Section Coll.
Variable n : cnode.
Hypothesis Hn : exists mv lo hi, collection_node mv lo hi = Some n.
Notation D := (whole 0 (Z.of_nat (cmaxval n) - 1)).
Definition CI (c : list num) (k : nat) (d : cdata num) : Prop :=
  CInv qeqb c k d /\ CInvariant n ((c, k), (cel d, csize d)) /\ Forall (touched D) (cprev d) /\ (c_dynamic n = false -> Forall NodeSpec.is_change (cprev d)).
Lemma inv_D c k l m : CInvariant n ((c, k), (l, m)) -> Forall D l.
Proof.
  intros (P & _ & H & _). apply Forall_forall. intros x Hx. destruct (H x) as (z & E & Hz); [eapply Permutation_in; [symmetry; exact P|exact Hx]|]. exists z. split; auto. lia.
Qed.
Lemma rot_log idxs : forall p el us el' us', D p -> Forall D el -> rot_loop idxs p el us = Some (el', us') ->
  exists ws, us' = us ++ ws /\ Forall (touched D) ws /\ Forall NodeSpec.is_change ws.
Proof.
  induction idxs as [|i r IH]; intros p el us el' us' Hp He H; cbn [rot_loop] in H; [injection H as _ <-; exists []; rewrite app_nil_r; auto|].
  destruct (nth_error el i) as [x|] eqn:E; [|discriminate]. assert (Hx : D x) by (rewrite Forall_forall in He; apply He; eapply nth_error_In; eauto).
  destruct (IH x (lset i p el) _ _ _ Hx (Forall_lset _ i p el Hp He) H) as (ws & -> & A & B). exists (change i x p :: ws). rewrite <- app_assoc. split; [reflexivity|]. split; constructor; auto; [now apply touched_change|apply change_is].
Qed.
Lemma CI_step c k d d' : CI c k d -> collection_move n d d' -> CI c k d'.
Proof.
  intros (H1 & H2 & H3 & H4) (o & Ho1 & Ho2 & E). pose proof (inv_D _ _ _ _ H2) as HD. destruct (H2) as (_ & _ & _ & Hk0 & Hk & Hl). assert (HD' := HD). rewrite Forall_forall in HD'.
  assert (Len : length c = length (cel d)) by (apply Permutation_length, H2). pose proof H1 as (_ & _ & Hcs & _).
  assert (Gn : forall s', cspec_op (cmin n) (cmax n) ((c, k), (cel d, csize d)) o = Some s' -> fst s' = (c, k) -> CInv qeqb c k d' /\ CInvariant n ((c, k), (cel d', csize d'))).
  { intros s' Es Ef. pose proof (cspec_op_inv n _ o s' H2 Es) as HC. destruct (c_run_spec n [o] ((c, k), (cel d, csize d)) d s' H2 H1 eq_refl) as (d1 & E1 & A & B & C).
    - unfold cspec_run. cbn [ofold]. now rewrite Es.
    - unfold c_run in E1. cbn [ofold] in E1. rewrite E in E1. injection E1 as <-. destruct s' as [s0 s1]. cbn [fst snd] in *. subst s0 s1. auto. }
  destruct o as [i j|dest src| | | |]; cbn [c_step] in E; try congruence.
  - unfold c_exchange in E. destruct (Nat.eqb_spec i j) as [->|Nij]; [injection E as <-; repeat (split; auto)|].
    destruct (nth_error (cel d) i) as [x|] eqn:Ei; [|discriminate]. destruct (nth_error (cel d) j) as [y|] eqn:Ej; [|discriminate].
    assert (i < length (cel d)) by (apply nth_error_Some; congruence). assert (j < length (cel d)) by (apply nth_error_Some; congruence).
    pose proof (HD' _ (nth_error_In _ _ Ei)) as Dx. pose proof (HD' _ (nth_error_In _ _ Ej)) as Dy.
    destruct (Gn (c, k, (swap_elems i j (cel d), csize d))) as [A B]; [cbn [cspec_op]; replace (i <? length (cel d)) with true by (symmetry; now apply Nat.ltb_lt); replace (j <? length (cel d)) with true by (symmetry; now apply Nat.ltb_lt); reflexivity|reflexivity|].
    split; [exact A|]. split; [exact B|]. injection E as <-. cbn [cprev].
    assert (T1 : touched D (change i x y)) by now apply touched_change. assert (T2 : touched D (change j y x)) by now apply touched_change.
    pose proof (change_is i x y). pose proof (change_is j y x).
    split; [|intros Hd; specialize (H4 Hd)]; apply Forall_app; split; auto; (destruct ((i <? csize d) && (j <? csize d))%bool; [apply Forall_cons; [assumption|]; apply Forall_cons; [assumption|apply Forall_nil]|]);
      (destruct (j <? csize d); [apply Forall_cons; [assumption|apply Forall_nil]|]); (destruct (i <? csize d); [apply Forall_cons; [assumption|apply Forall_nil]|apply Forall_nil]).
  - unfold c_rotate in E. destruct (Nat.eqb_spec src dest) as [->|Nij]; [injection E as <-; repeat (split; auto)|].
    destruct (Nat.ltb_spec src (csize d)) as [Ls|]; [|discriminate]. destruct (Nat.ltb_spec dest (csize d)) as [Ld|]; [|discriminate]. cbn [andb negb] in E.
    destruct (nth_error (cel d) src) as [p|] eqn:Ep; [|discriminate]. destruct (rot_loop (rot_indices dest src) p (cel d) []) as [[el us]|] eqn:Er; [|discriminate].
    destruct (Gn (c, k, (move_elem dest src (cel d), csize d))) as [A B]; [cbn [cspec_op]; replace (src <? csize d) with true by (symmetry; now apply Nat.ltb_lt); replace (dest <? csize d) with true by (symmetry; now apply Nat.ltb_lt); reflexivity|reflexivity|].
    split; [exact A|]. split; [exact B|]. injection E as <-. cbn [cprev]. destruct (rot_log _ _ _ _ _ _ (HD' _ (nth_error_In _ _ Ep)) HD Er) as (ws & -> & W1 & W2). cbn [app].
    split; [|intros Hd; specialize (H4 Hd)]; apply Forall_app; auto.
  - unfold cn_grow in E. destruct (c_dynamic n) eqn:Ed; [|discriminate]. destruct (Nat.ltb_spec (csize d) (cmax n)); [|discriminate]. cbn [andb] in E. unfold c_grow in E.
    destruct (nth_error (cel d) (csize d)) as [x|] eqn:Ex; [|discriminate]. destruct (Gn (c, k, (cel d, S (csize d)))) as [A B]; [cbn [cspec_op]; replace (csize d <? cmax n) with true by (symmetry; now apply Nat.ltb_lt); reflexivity|reflexivity|].
    split; [exact A|]. split; [exact B|]. injection E as <-. cbn [cprev]. split; [|congruence]. apply Forall_app. split; auto. constructor; auto. intros z [Hz|Hz]; cbn [placement uold uval] in Hz; [discriminate|]. injection Hz as <-. apply HD'. eapply nth_error_In; eauto.
  - unfold cn_shrink in E. destruct (c_dynamic n) eqn:Ed; [|discriminate]. destruct (Nat.ltb_spec (cmin n) (csize d)); [|discriminate]. cbn [andb] in E. unfold c_shrink in E.
    destruct (csize d) as [|m] eqn:Em; [discriminate|]. destruct (nth_error (cel d) m) as [x|] eqn:Ex; [|discriminate]. destruct (Gn (c, k, (cel d, m))) as [A B]; [cbn [cspec_op]; replace (cmin n <? S m) with true by (symmetry; now apply Nat.ltb_lt); now replace (S m - 1) with m by lia|reflexivity|].
    split; [exact A|]. split; [exact B|]. injection E as <-. cbn [cprev]. split; [|congruence]. apply Forall_app. split; auto. constructor; auto. intros z [Hz|Hz]; cbn [removal uold uval] in Hz; [|discriminate]. injection Hz as <-. apply HD'. eapply nth_error_In; eauto.
Qed.

Definition collected (p : pin num) : Prop := within D p /\ NoDup (pview p) /\ cmin n <= length (pview p) <= cmax n.
Lemma inv_view c k l m : CInvariant n ((c, k), (l, m)) -> NoDup (firstn m l) /\ cmin n <= length (firstn m l) <= cmax n.
Proof.
  intros (P & Nd & _ & _ & Hm & Hl). apply Permutation_length in P as Len. split; [|rewrite firstn_length; lia].
  assert (N : NoDup l) by (eapply Permutation_NoDup; eauto). rewrite <- (firstn_skipn m l) in N. clear -N. induction (firstn m l) as [|x t IH]; [constructor|]. cbn [app] in N. inversion N; subst. constructor; [|auto]. intros H. apply H1. apply in_or_app. now left.
Qed.
Lemma collection_collects default : decides qeqb (collection_vnode n default) collected (collection_start n) (collection_move n).
Proof.
  exists (fun v s => exists el k, s = c_new el k /\ v = firstn k el /\ k <= length el /\ CInvariant n ((el, k), (el, k))).
  assert (Hf : forall el k, CInvariant n ((el, k), (el, k)) -> fits [if c_dynamic n then (-1)%Z else Z.of_nat (cmax n)] (firstn k el)).
  { intros el k (_ & _ & _ & Hk & _ & Hl). unfold fits, fits_len, c_dynamic. rewrite firstn_length. destruct (Nat.eqb_spec (cmin n) (cmax n)) as [Em|Em]; cbn [negb dynamic].
    - replace (Z.of_nat (cmax n) <? 0)%Z with false by lia. cbn [tl prod fold_right]. lia.
    - exists (Z.of_nat (Nat.min k (length el))). cbn [tl prod fold_right]. lia. }
  unfold dcontract. cbn [vn_shape vn_out vn_prop vn_commit vn_revert vn_ST collection_vnode]. split; [|split].
  - intros s Hs. destruct (c_initial_ok n s Hn Hs) as [A B]. exists (firstn (csize s) (cel s)), (cel s), (csize s). split; [|split; [reflexivity|split; [apply A|exact B]]].
    destruct Hs as [(contents & Hc)|[->| ->]]; [|reflexivity|reflexivity]. unfold collection_init in Hc. repeat match type of Hc with (if ?b then _ else _) = _ => destruct b; [discriminate|] end. assert (E : s = c_new (contents ++ filter (fun v => negb (qmem v (qset contents))) (qrange (cmaxval n))) (length (qset contents))) by congruence. now rewrite E.
  - intros v s (el & k & -> & -> & Hk & HC). split; [auto|]. split; [split; [split; [|constructor]|exact (inv_view _ _ _ _ HC)]|].
    + apply Forall_forall. intros x Hx. pose proof (inv_D _ _ _ _ HC) as HD. rewrite Forall_forall in HD. apply HD. rewrite <- (firstn_skipn k el). apply in_or_app. now left.
    + unfold still, c_view, c_size_diff. cbn [c_new csize cel cprev cpsize pview]. now rewrite Z.sub_diag.
  - intros v s s' (el & k & -> & -> & Hk & HC) R. assert (I : CI el k s').
    { apply clos_rt_rtn1 in R. induction R as [|y z St _ IH]; [split; [now apply CInv_init|split; [exact HC|split; [constructor|intros _; constructor]]]|eapply CI_step; eauto]. }
    destruct I as (I1 & I2 & I3 & I4). pose proof I1 as (P1 & P2 & P3 & P4 & P5 & P6). pose proof (cspec_op_inv n _ CCommit _ I2 eq_refl) as HC'. split; [reflexivity|]. split.
    + eexists. split; [reflexivity|]. cbn [pview pdiff psdiff]. split; [|split; [split; [split; [|exact I3]|exact (inv_view _ _ _ _ I2)]|]].
      * split; cbn [pview pdiff psdiff]; auto; [now apply Hf| |].
        { unfold c_size_diff, c_view. rewrite !firstn_length. rewrite P1. lia. }
        { intros Hd. apply I4. unfold c_dynamic in *. destruct (Nat.eqb_spec (cmin n) (cmax n)); [reflexivity|]. cbn in Hd. discriminate. }
      * apply Forall_forall. intros x Hx. pose proof (inv_D _ _ _ _ I2) as HD. rewrite Forall_forall in HD. apply HD. rewrite <- (firstn_skipn (csize s') (cel s')). apply in_or_app. now left.
      * eexists. split; [reflexivity|]. exists (cel s'), (csize s'). split; [reflexivity|]. split; [reflexivity|]. split; [exact P3|exact HC'].
    + exists (c_new el k). split; [|exists el, k; auto]. change (vn_revert (collection_vnode n default) s' []) with (of_opt (c_revert s')).
      rewrite (CInv_revert _ qeqb_spec el k s' I1). reflexivity.
Qed.
Lemma collection_decides default : decides qeqb (collection_vnode n default) (within D) (collection_start n) (collection_move n).
Proof. eapply decides_weaken; [|apply collection_collects]. intros p [H _]. exact H. Qed.
End Coll.
