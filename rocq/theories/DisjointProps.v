(** C09-C12 and the disjoint part of C47. *)
From Verif Require Import Base Num StateDataModel StateDataSpec StateDataProofs Replay
  CollectionsModel CollectionsSpec CollectionsProofs DisjointModel DisjointSpec DisjointProofs.

(** C09: from the default state, or from explicit contents that form a partition, every history runs
    and the exposed rows are the indicator rows of one assignment of items to sets: item [e] is in
    set [s] exactly if [owner e = s]; [get_containing_set_index] returns that owner. *)
Theorem C09_bitsets_partition :
  forall (n m : nat) (d : bsdata) (owner : list nat) (history : list bsop) (st : list nat * list nat),
  0 < m ->
  (bs_init_default n m = Some d /\ owner = repeat 0 n) \/
  (length owner = n /\ Forall (fun s => s < m) owner /\
   bs_init n m (map (indicator owner) (seq 0 m)) = Ok d) ->
  bspec_run n m (owner, owner) history = Some st ->
  exists d', bs_run d history = Some d' /\
    length (snd st) = n /\ Forall (fun s => s < m) (snd st) /\
    (forall s, s < m -> bs_view d' s = indicator (snd st) s) /\
    (forall e x, nth_error (snd st) e = Some x -> bs_containing d' e = Some x).
Proof.
  intros n m d owner h st Hm Hd Hs.
  assert (HI : BInv n m owner owner d).
  { destruct Hd as [[Hd ->]|(Hl & Hw & Hd)].
    - destruct (bs_init_default_spec n m Hm) as (d1 & E & HI). rewrite Hd in E. now injection E as ->.
    - destruct (bs_init_ok n m (map (indicator owner) (seq 0 m))) as (d1 & w & E & HI & _ & Ew).
      { exists owner. auto. }
      rewrite Hd in E. injection E as <-.
      replace owner with w; auto.
      pose proof HI as (_ & _ & _ & _ & _ & Hlw & _ & Hww & _).
      apply nth_error_ext. intros e. destruct (nth_error w e) as [x|] eqn:Ex.
      + pose proof (nth_error_lt _ _ Ex) as He. rewrite Hlw, <- Hl in He.
        destruct (nth_error_get _ He) as [y Ey]. rewrite Ey. f_equal.
        assert (Hx : x < m) by (rewrite Forall_forall in Hww; apply Hww; eapply nth_error_In; eauto).
        apply (f_equal (fun r => nth_error r x)) in Ew. rewrite !nth_error_map, !nth_error_seq in Ew.
        rewrite (proj2 (Nat.ltb_lt _ _)) in Ew by auto. cbn [Nat.add] in Ew.
        assert (Er : indicator owner x = indicator w x) by congruence.
        apply (f_equal (fun r => nth_error r e)) in Er. rewrite !indicator_nth, Ex, Ey in Er.
        assert (Ei : ind y x = ind x x) by congruence. unfold ind in Ei. rewrite Nat.eqb_refl in Ei.
        destruct (Nat.eqb_spec y x); auto. apply zq_inj in Ei. discriminate.
      + apply nth_error_None in Ex. symmetry. apply nth_error_None. lia. }
  destruct (bs_run_spec _ _ _ _ _ _ _ HI Hs) as (d' & Hr & HI').
  exists d'. split; auto. pose proof HI' as (H1 & H2 & H3 & H4 & H5 & H6 & H7 & H8 & H9).
  repeat split; auto.
  - intros s Hlt. unfold bs_view. rewrite H1. now apply H9.
  - intros e x Ex. eapply bs_containing_spec; eauto.
Qed.
Print Assumptions C09_bitsets_partition.

(** C09, the accepted explicit contents: a partition is always accepted ... *)
Theorem C09_bitsets_init_accepts :
  forall (n m : nat) (owner : list nat),
  length owner = n -> Forall (fun s => s < m) owner ->
  exists d, bs_init n m (map (indicator owner) (seq 0 m)) = Ok d /\
    map (bs_view d) (seq 0 m) = map (indicator owner) (seq 0 m).
Proof.
  intros n m owner Hl Hw. destruct (bs_init_ok n m (map (indicator owner) (seq 0 m))) as (d & w & E & _ & H & _).
  - exists owner. auto.
  - eauto.
Qed.
Print Assumptions C09_bitsets_init_accepts.

(** ... but so are contents that are not: one item in both sets and the other in none; then
    [get_containing_set_index] runs into [unreachable()]. *)
Theorem C09_bitsets_init_refuted :
  exists contents d, bs_init 2 2 contents = Ok d /\ map (bs_view d) (seq 0 2) = contents /\
    contents = [[zq 1; zq 0]; [zq 1; zq 0]] /\ bs_containing d 1 = None.
Proof. eexists. eexists. split; [|split; [|split; [reflexivity|]]]; vm_compute; reflexivity. Qed.
Print Assumptions C09_bitsets_init_refuted.

(** C11 for bit sets: the updates of each set replay from its committed row to its current row;
    revert restores every row and clears the updates, commit keeps them. *)
Theorem C11_bitsets_revert :
  forall (n m : nat) (d0 : bsdata) (history : list bsop) (st : list nat * list nat),
  0 < m -> bs_init_default n m = Some d0 ->
  bspec_run n m (repeat 0 n, repeat 0 n) history = Some st ->
  exists d, bs_run d0 history = Some d /\
    (forall s, s < m -> exists us, bs_diff d s = Some us /\
       replay qeqb (indicator (fst st) s) us = Some (bs_view d s)) /\
    (exists d', bs_revert d = Some d' /\ forall s, s < m ->
       bs_view d' s = indicator (fst st) s /\ bs_diff d' s = Some []) /\
    (forall s, s < m -> bs_view (bs_commit d) s = bs_view d s /\ bs_diff (bs_commit d) s = Some []).
Proof.
  intros n m d0 h st Hm Hd Hs.
  destruct (bs_init_default_spec n m Hm) as (d1 & E & HI). rewrite Hd in E. injection E as <-.
  destruct (bs_run_spec _ _ _ _ _ _ _ HI Hs) as (d & Hr & HI').
  exists d. split; auto.
  pose proof HI' as (H1 & H2 & H3 & H4 & H5 & H6 & H7 & H8 & H9).
  split; [|split].
  - intros s Hlt. destruct (H9 s Hlt) as (Hrow & us & Eu & _ & Hrp). exists us. split; auto.
    unfold bs_view. rewrite H1. fold (row n s (bsdat d)). congruence.
  - destruct (bs_revert_spec _ _ _ _ _ HI') as (d' & Hd' & HI''). exists d'. split; auto. intros s Hlt.
    pose proof HI'' as (K1 & _ & _ & _ & _ & _ & _ & _ & K9). destruct (K9 s Hlt) as (Hrow & us & Eu & _).
    split; [unfold bs_view; rewrite K1; exact Hrow|].
    unfold bs_revert in Hd'. destruct (ofold _ _ _); [|discriminate]. injection Hd' as <-. cbn in *.
    unfold bs_diff. cbn. rewrite nth_error_map. destruct (H9 s Hlt) as (_ & u0 & E0 & _). now rewrite E0.
  - intros s Hlt. split; [reflexivity|]. unfold bs_diff. cbn. rewrite nth_error_map.
    destruct (H9 s Hlt) as (_ & u0 & E0 & _). now rewrite E0.
Qed.
Print Assumptions C11_bitsets_revert.

(** C10: the lists are the ones the plain specification gives, and without [set_state] (which
    the code documents as unchecked) they stay a partition of 0..n-1. *)
Theorem C10_lists_partition :
  forall (n m : nat) (d : list (@adata num)) (history : list dlop) (st : list (list num) * list (list num)),
  0 < m ->
  (dl_init_default n m = Some d \/ exists contents, dl_init n m contents = Ok d) ->
  dlspec_run (dl_view d, dl_view d) history = Some st ->
  exists d', dl_run d history = Some d' /\ dl_view d' = snd st /\
    (Forall no_set history -> length (dl_view d') = m /\ list_partition n (dl_view d')).
Proof.
  intros n m d h st Hm Hd Hs.
  assert (H0 : exists contents, length contents = m /\ list_partition n contents /\ d = map (@a_init num) contents).
  { destruct Hd as [Hd|[contents Hd]].
    - destruct (dl_init_default_spec n m Hm) as [E HP]. rewrite Hd in E. injection E as ->.
      exists (qrange n :: repeat [] (m - 1)). split; [cbn; rewrite repeat_length; lia|]. auto.
    - destruct (dl_init_spec n m contents) as [H1 H2].
      assert (Hdec : length contents = m /\ list_partition n contents \/ dl_init n m contents = Throw).
      { unfold dl_init in *. destruct (Nat.eqb_spec (length contents) m) as [Hl|]; cbn [negb] in *; auto.
        rewrite fold_concat in *.
        destruct (fold_left (dl_check1 n) (concat contents) (Some [])) as [seen|] eqn:E; auto.
        destruct (Nat.eqb_spec (length seen) n) as [Hn|]; cbn [negb] in *; auto.
        left. split; auto. apply dl_scan in E. destruct E as (zs & Ez & Hf & Hnd & _ & ->).
        rewrite app_nil_r, rev_length in Hn. apply list_partition_iff. exists zs. auto. }
      destruct Hdec as [Hc|Hc]; [|congruence]. exists contents. destruct Hc. split; auto. split; auto.
      rewrite H1 in Hd by auto. congruence. }
  destruct H0 as (contents & Hl & HP & ->). rewrite dl_view_init in Hs.
  assert (Hs' : dlspec_run (contents, dl_view (map (@a_init num) contents)) h = Some st)
    by now rewrite dl_view_init.
  destruct (dl_run_spec _ _ _ _ (DInv_init contents) Hs') as (d' & Hr & HI & Hv).
  exists d'. split; auto. split; auto. intros Hno. destruct st as [c' ls']. cbn [fst snd] in *. rewrite Hv. split.
  - assert (Hlen : forall os c ls st, length c = m -> length ls = m -> dlspec_run (c, ls) os = Some st ->
      length (fst st) = m /\ length (snd st) = m).
    { clear. induction os as [|o os IH]; intros c ls st Hc Hl H; unfold dlspec_run in *; cbn [ofold] in H.
      - injection H as <-. auto.
      - destruct (dlspec_op (c, ls) o) as [[c1 l1]|] eqn:E; [|discriminate].
        assert (length c1 = m /\ length l1 = m) as [? ?]; [|apply (IH c1 l1); auto].
        destruct o; cbn [dlspec_op] in E;
          repeat match type of E with
          | context [match ?x with _ => _ end] => destruct x; try discriminate
          end; injection E as <- <-; rewrite ?lset_length; auto. }
    eapply Hlen in Hs; eauto. apply Hs.
  - eapply list_partition_perm; [|exact HP]. eapply dlspec_run_perm; eauto.
Qed.
Print Assumptions C10_lists_partition.

(** C11 for lists: after any history, [set_state] included, the updates of each list replay from its
    committed contents, the size difference is exact, revert restores and commit keeps. *)
Theorem C11_lists_revert :
  forall (contents : list (list num)) (history : list dlop) (st : list (list num) * list (list num)),
  dlspec_run (contents, contents) history = Some st ->
  exists d, dl_run (map (@a_init num) contents) history = Some d /\ dl_view d = snd st /\
    (forall k x c, nth_error d k = Some x -> nth_error (fst st) k = Some c ->
       replay qeqb c (aupd x) = Some (abuf x) /\
       l_size_diff x = (Z.of_nat (length (abuf x)) - Z.of_nat (length c))%Z) /\
    dl_revert d = Some (map (@a_init num) (fst st)) /\
    dl_commit d = map (@a_init num) (snd st) /\
    length d = length (fst st).
Proof.
  intros contents h st Hs.
  assert (Hs' : dlspec_run (contents, dl_view (map (@a_init num) contents)) h = Some st)
    by now rewrite dl_view_init.
  destruct (dl_run_spec _ _ _ _ (DInv_init contents) Hs') as (d & Hr & HI & Hv).
  exists d. split; auto. split; auto. split; [|split; [|split]].
  - intros k x c Hx Hc. destruct (Forall2_nth_r _ _ _ _ _ HI Hx) as (c' & Hc' & [H1 H2]).
    replace c with c' by congruence. split; auto. unfold l_size_diff. congruence.
  - unfold dl_revert. clear -HI. induction HI as [|ck x c d HL HI IH]; cbn; auto.
    rewrite (l_revert_spec _ _ HL). cbn in IH. rewrite IH. reflexivity.
  - rewrite <- Hv. unfold dl_commit, dl_view. rewrite map_map. clear -HI.
    induction HI as [|ck x c d HL HI IH]; cbn; auto. rewrite (l_commit_spec _ _ HL). now f_equal.
  - clear -HI. induction HI; cbn; auto.
Qed.
Print Assumptions C11_lists_revert.

(** C12: exact acceptance of explicit contents. *)
Theorem C12_lists_init_exact :
  forall (n m : nat) (contents : list (list num)),
  (length contents = m /\ list_partition n contents ->
     exists d, dl_init n m contents = Ok d /\ dl_view d = contents /\
       Forall (fun x => aupd x = [] /\ l_size_diff x = 0%Z) d) /\
  (~ (length contents = m /\ list_partition n contents) -> dl_init n m contents = Throw).
Proof.
  intros n m contents. destruct (dl_init_spec n m contents) as [H1 H2]. split; auto.
  intros H. rewrite H1 by auto. eexists. split; [reflexivity|]. split; [apply dl_view_init|].
  apply Forall_map, Forall_forall. intros l _. split; auto. unfold l_size_diff. cbn. lia.
Qed.
Print Assumptions C12_lists_init_exact.

(** C47, disjoint decisions: with at least one item every default move, for every draw in range, is
    a legal move. *)
Theorem C47_disjoint_default_move :
  (forall n m c w d f t e, BInv n m c w d -> f < m -> t < m -> e < n ->
     exists d' w', bs_default_move d f t e = Some d' /\ BInv n m c w' d') /\
  (forall c d draw list_j a b,
     DInv c d -> concat (dl_view d) <> [] -> (forall k, (draw k <= 1)%Qc) ->
     list_j < length d ->
     (let list_i := dl_choose draw 0 (map (fun x => length (abuf x)) d) 0 0 in
      exists xi xj, nth_error d list_i = Some xi /\ nth_error d list_j = Some xj /\ 0 < length (abuf xi) /\
      (a < length (abuf xi) ->
       (if list_i =? list_j then b < length (abuf xi) else b <= length (abuf xj)) ->
       exists d', dl_default_move d draw list_j a b = Some d' /\ DInv c d' /\
         Permutation (concat (dl_view d)) (concat (dl_view d'))))).
Proof.
  split.
  - intros n m c w d f t e HI Hf Ht He. unfold bs_default_move.
    pose proof HI as (H1 & H2 & H3 & H4 & H5 & H6 & H7 & H8 & H9).
    rewrite <- H6 in He. destruct (nth_error_get _ He) as [x Ex].
    destruct (bs_swap_spec n m c w d f t e
      (c, lset e (if x =? f then t else if x =? t then f else x) w)) as (d' & E & HI'); auto.
    + cbn. rewrite Ex. rewrite !(proj2 (Nat.ltb_lt _ _)) by auto. reflexivity.
    + eauto.
  - intros c d draw list_j a b HI Hne Hd Hj list_i.
    assert (Hi : exists xi, nth_error d list_i = Some xi /\ 0 < length (abuf xi)).
    { destruct (dl_choose_spec draw (map (fun x => length (abuf x)) d) Hd 0 0 0) as [[_ H]|(_ & s & H1 & H2)].
      - exfalso. apply Hne. specialize (H eq_refl). clear -H. unfold dl_view.
        induction d as [|x d IH]; cbn in *; auto. inversion_clear H.
        destruct (abuf x); [|discriminate]. cbn. auto.
      - fold list_i in H1. rewrite Nat.sub_0_r, nth_error_map in H1.
        destruct (nth_error d list_i) as [xi|]; [|discriminate]. exists xi. split; auto.
        injection H1 as ->. auto. }
    destruct Hi as (xi & Exi & Hpos). destruct (nth_error_get _ Hj) as [xj Exj].
    exists xi, xj. split; auto. split; auto. split; auto. intros Ha Hb.
    unfold dl_default_move. fold list_i. destruct (Nat.eqb_spec list_i list_j) as [E|E].
    + destruct (dl_step_spec c d (DSwap list_i a b)
        (c, lset list_i (swap_elems a b (abuf xi)) (dl_view d))) as (d' & Hd' & HI' & Hv); auto.
      { cbn. rewrite (dl_view_get _ _ _ Exi).
        rewrite !(proj2 (Nat.ltb_lt _ _)) by auto. reflexivity. }
      exists d'. split; auto. split; auto. rewrite Hv. cbn [snd].
      eapply dlspec_op_perm with (c := dl_view d) (o := DSwap list_i a b) (c' := dl_view d); cbn; auto.
      rewrite (dl_view_get _ _ _ Exi).
      rewrite !(proj2 (Nat.ltb_lt _ _)) by auto. reflexivity.
    + destruct (nth_error_get _ Ha) as [v Ev].
      assert (Hspec : forall c0, dlspec_op (c0, dl_view d) (DPop list_i a list_j b) =
        Some (c0, lset list_j (insert_at b v (abuf xj)) (lset list_i (delete_at a (abuf xi)) (dl_view d)))).
      { intros c0. cbn. rewrite (dl_view_get _ _ _ Exi), (dl_view_get _ _ _ Exj), Ev.
        rewrite (proj2 (Nat.leb_le _ _)) by auto. rewrite nth_error_lset_neq by auto.
        rewrite (dl_view_get _ _ _ Exj). reflexivity. }
      destruct (dl_step_spec c d _ _ HI (Hspec c)) as (d' & Hd' & HI' & Hv).
      exists d'. split; auto. split; auto. rewrite Hv. cbn [snd].
      eapply (dlspec_op_perm (dl_view d) (dl_view d) (DPop list_i a list_j b)); cbn; auto. apply Hspec.
Qed.
Print Assumptions C47_disjoint_default_move.

(** Without items the moves read out of range. *)
Theorem C47_disjoint_default_move_refuted :
  (exists d, bs_init_default 0 2 = Some d /\ forall e, bs_default_move d 0 1 e = None) /\
  (exists d, dl_init_default 0 2 = Some d /\ forall draw a b, a <> b ->
     dl_default_move d draw 0 a b = None /\ dl_default_move d draw 1 a b = None).
Proof.
  split.
  - eexists. split; [reflexivity|]. intros e. unfold bs_default_move, bs_swap. cbn. destruct e; reflexivity.
  - eexists. split; [reflexivity|]. intros draw a b Hab. split.
    + unfold dl_default_move. cbn. unfold dl_swap, on_list. cbn. unfold l_swap. cbn.
      rewrite (proj2 (Nat.eqb_neq a b)) by auto. destruct a; reflexivity.
    + unfold dl_default_move. cbn. unfold dl_pop_to. cbn. reflexivity.
Qed.
Print Assumptions C47_disjoint_default_move_refuted.

(** Concrete cases. *)
Example C09_example :
  bspec_run 3 2 (repeat 0 3, repeat 0 3) [BSwap 0 1 2; BCommit; BSwap 1 0 2; BSwap 0 1 0; BRevert; BSwap 0 1 1]
  = Some ([0; 0; 1], [0; 1; 1]).
Proof. reflexivity. Qed.
Example C10_example :
  dlspec_run ([map nq [0;1;2;3]; []], [map nq [0;1;2;3]; []])
    [DPop 0 1 1 0; DPop 0 0 1 1; DCommit; DSwap 0 0 1; DPop 1 0 1 2; DRevert; DRotate 1 1 0; DPop 0 1 1 1]
  = Some ([map nq [2;3]; map nq [1;0]], [map nq [2]; map nq [0;3;1]]).
Proof. vm_compute. reflexivity. Qed.
Example C11_example :
  exists d, dl_run (map (@a_init num) [map nq [0;1;2;3]; []])
    [DPop 0 1 1 0; DSet 0 (map nq [3;2]); DPop 0 1 1 0] = Some d /\
    dl_view d = [map nq [3]; map nq [2;1]] /\ map (fun x => length (aupd x)) d = [6; 3].
Proof. eexists. split; [vm_compute; reflexivity|]. split; vm_compute; reflexivity. Qed.
Example C12_example :
  (exists d, dl_init 3 2 [map nq [2;0]; map nq [1]] = Ok d) /\
  dl_init 3 2 [map nq [2;0]; map nq [2]] = Throw /\ dl_init 3 2 [map nq [2;0]; []] = Throw /\
  dl_init 3 2 [map nq [2;0]; [Q2Qc (1#2)]] = Throw.
Proof. split; [eexists; vm_compute; reflexivity|]. repeat split; vm_compute; reflexivity. Qed.
