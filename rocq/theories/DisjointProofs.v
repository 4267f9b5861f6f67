(** Lemmas about the disjoint decisions. *)
From Verif Require Import Base Num StateDataModel StateDataSpec StateDataProofs Replay
  CollectionsModel CollectionsSpec CollectionsProofs DisjointModel DisjointSpec.

(** ** Disjoint lists *)
Notation LInv := (Inv qeqb).
Notation rp := (replay qeqb).

Lemma LInv_ext c (d : @adata num) us b :
  LInv c d -> rp (abuf d) us = Some b -> LInv c (AData b (aupd d ++ us) (aprev d)).
Proof. intros [H1 H2] H. split; cbn; auto. now rewrite (rp_app _ _ _ _ H2). Qed.

Lemma move_elem_same (l : list num) i : i < length l -> move_elem i i l = l.
Proof.
  intros Hi. destruct (nth_error_get _ Hi) as [x Ex]. unfold move_elem. rewrite Ex.
  destruct (nth_error_split _ _ Ex) as (A & B & -> & HA).
  rewrite delete_at_exact, insert_at_exact by auto. reflexivity.
Qed.
Lemma swap_elems_same (l : list num) i : swap_elems i i l = l.
Proof.
  unfold swap_elems. destruct (nth_error l i) as [x|] eqn:E; auto.
  rewrite lset_lset. now apply lset_same.
Qed.

Lemma l_rotate_spec c d dest src : LInv c d -> dest < length (abuf d) -> src < length (abuf d) ->
  exists d', l_rotate d dest src = Some d' /\ LInv c d' /\ abuf d' = move_elem dest src (abuf d).
Proof.
  intros HI Hd Hs. unfold l_rotate. destruct (Nat.eqb_spec dest src) as [<-|Hne].
  - exists d. split; auto. split; auto. now rewrite move_elem_same.
  - rewrite (proj2 (Nat.ltb_lt _ _)), (proj2 (Nat.ltb_lt _ _)) by auto. cbn [andb negb].
    destruct (nth_error_get _ Hs) as [x Ex]. rewrite Ex.
    destruct (rotate_loop_spec (abuf d) dest src x) as [us E]; auto.
    rewrite E. destruct (rot_loop_replay _ qeqb_spec _ _ _ _ _ _ E) as (us2 & Hus & Hr & _).
    cbn in Hus. subst us2. eexists. split; [reflexivity|]. split; [|reflexivity].
    eapply LInv_ext; eauto.
Qed.

Lemma l_swap_spec c d i j : LInv c d -> i < length (abuf d) -> j < length (abuf d) ->
  exists d', l_swap d i j = Some d' /\ LInv c d' /\ abuf d' = swap_elems i j (abuf d).
Proof.
  intros HI Hi Hj. unfold l_swap. destruct (Nat.eqb_spec i j) as [<-|Hne].
  - exists d. split; auto. split; auto. now rewrite swap_elems_same.
  - destruct (nth_error_get _ Hi) as [x Ex], (nth_error_get _ Hj) as [y Ey]. rewrite Ex, Ey.
    eexists. split; [reflexivity|]. unfold swap_elems. rewrite Ex, Ey. split.
    + eapply LInv_ext; eauto.
      rewrite (rp_cons _ _ _ _ (rp_change qeqb_spec _ _ _ y Ex)).
      apply rp_one, rp_change; [apply qeqb_spec|]. now rewrite nth_error_lset_neq by auto.
    + cbn. apply lset_comm; auto.
Qed.

Lemma del_loop_spec w : forall A x us,
  exists us2 l y, del_loop (seq (length A) (length w)) (A ++ x :: w) us = Some (l, us ++ us2)
    /\ rp (A ++ x :: w) us2 = Some l /\ l = A ++ w ++ [y].
Proof.
  induction w as [|h w IH]; intros A x us.
  - exists [], (A ++ [x]), x. cbn. rewrite app_nil_r. auto.
  - cbn [length]. cbn [seq del_loop].
    assert (E1 : nth_error (A ++ x :: h :: w) (length A) = Some x).
    { rewrite nth_error_app2, Nat.sub_diag by lia. reflexivity. }
    rewrite E1. rewrite nth_error_app2 by lia. replace (S (length A) - length A) with 1 by lia.
    cbn [nth_error]. rewrite lset_mid.
    replace (S (length A)) with (length (A ++ [h])) by (rewrite app_length; cbn; lia).
    replace (A ++ h :: h :: w) with ((A ++ [h]) ++ h :: w) by (rewrite <- app_assoc; auto).
    destruct (IH (A ++ [h]) h (us ++ [change (length A) x h])) as (us2 & l & y & E & Hr & Hl).
    rewrite E. exists (change (length A) x h :: us2), l, y. rewrite <- !app_assoc. split; auto. split.
    + rewrite (rp_cons _ _ _ _ (rp_change qeqb_spec _ _ _ h E1)). rewrite lset_mid.
      rewrite <- app_assoc in Hr. exact Hr.
    + rewrite Hl, <- app_assoc. reflexivity.
Qed.

Lemma l_pop_spec c d i x : LInv c d -> nth_error (abuf d) i = Some x ->
  exists d', l_pop d i = Some (x, d') /\ LInv c d' /\ abuf d' = delete_at i (abuf d).
Proof.
  intros HI Hx. unfold l_pop. rewrite Hx.
  destruct (nth_error_split _ _ Hx) as (A & w & E & HA).
  rewrite E. destruct (del_loop_spec w A x (aupd d)) as (us2 & l & y & Ed & Hr & Hl).
  replace (length (A ++ x :: w) - 1) with (length (A ++ w)) by (rewrite !app_length; cbn; lia).
  replace (length (A ++ w) - i) with (length w) by (rewrite app_length; lia). rewrite <- HA.
  rewrite Ed. subst l. rewrite (app_assoc A), nth_error_snoc.
  eexists. split; [reflexivity|]. rewrite firstn_snoc_length, delete_at_exact by auto.
  split; [|reflexivity]. rewrite <- app_assoc. eapply LInv_ext; eauto. rewrite E.
  rewrite (rp_app _ _ _ _ Hr). rewrite app_assoc. apply rp_one. apply rp_remove; auto. apply qeqb_spec.
Qed.

Lemma ins_loop_spec w : forall A v us,
  exists us2 l y, ins_loop (seq (length A) (length w)) v (A ++ w) us = Some (y, l, us ++ us2)
    /\ rp (A ++ w) us2 = Some l /\ l ++ [y] = A ++ v :: w.
Proof.
  induction w as [|h w IH]; intros A v us.
  - exists [], A, v. cbn. rewrite !app_nil_r. auto.
  - cbn [length]. cbn [seq ins_loop].
    assert (E1 : nth_error (A ++ h :: w) (length A) = Some h).
    { rewrite nth_error_app2, Nat.sub_diag by lia. reflexivity. }
    rewrite E1, lset_mid.
    replace (S (length A)) with (length (A ++ [v])) by (rewrite app_length; cbn; lia).
    replace (A ++ v :: w) with ((A ++ [v]) ++ w) by (rewrite <- app_assoc; auto).
    destruct (IH (A ++ [v]) h (us ++ [change (length A) h v])) as (us2 & l & y & E & Hr & Hl).
    rewrite E. exists (change (length A) h v :: us2), l, y. rewrite <- !app_assoc. split; auto. split.
    + rewrite (rp_cons _ _ _ _ (rp_change qeqb_spec _ _ _ v E1)). rewrite lset_mid.
      rewrite <- app_assoc in Hr. exact Hr.
    + rewrite Hl, <- app_assoc. reflexivity.
Qed.

Lemma l_insert_spec c d j v : LInv c d -> j <= S (length (abuf d)) ->
  exists d', l_insert d j v = Some d' /\ LInv c d' /\ abuf d' = insert_at j v (abuf d).
Proof.
  intros HI Hj. unfold l_insert.
  destruct (le_lt_dec j (length (abuf d))) as [Hle|Hgt].
  - set (A := firstn j (abuf d)). set (w := skipn j (abuf d)).
    assert (HA : length A = j) by (unfold A; rewrite firstn_length; lia).
    assert (E : abuf d = A ++ w) by (symmetry; apply firstn_skipn).
    destruct (ins_loop_spec w A v (aupd d)) as (us2 & l & y & Ei & Hr & Hl).
    replace (length (abuf d) - j) with (length w) by (rewrite E, app_length; lia).
    rewrite <- HA, E, Ei. eexists. split; [reflexivity|]. rewrite insert_at_exact by auto.
    split; [|cbn; auto]. rewrite <- app_assoc. eapply LInv_ext; eauto. rewrite E.
    rewrite (rp_app _ _ _ _ Hr). apply rp_one, rp_place. reflexivity.
  - replace (length (abuf d) - j) with 0 by lia. cbn [seq ins_loop].
    eexists. split; [reflexivity|]. split.
    + eapply LInv_ext; eauto. apply rp_one, rp_place. reflexivity.
    + cbn. unfold insert_at. now rewrite firstn_all2, skipn_all2 by lia.
Qed.

Lemma l_assign_spec c d vs : LInv c d ->
  LInv c (fst (a_assign qeqb d vs)) /\ abuf (fst (a_assign qeqb d vs)) = vs.
Proof.
  intros HI. pose proof (a_assign_spec _ qeqb_spec (zq 0) d vs) as H.
  destruct (a_assign qeqb d vs) as [d' b]. destruct H as (H1 & H2 & us & H3 & H4). cbn [fst].
  split; auto. destruct HI as [Hp Hr]. split; [congruence|]. rewrite H3, (rp_app _ _ _ _ Hr). congruence.
Qed.

Lemma l_commit_spec c d : LInv c d -> l_commit d = a_init (abuf d).
Proof.
  intros [H1 H2]. unfold l_commit, a_init. destruct d as [b us p]. cbn in *.
  destruct us; [|reflexivity]. unfold replay in H2. cbn in H2. congruence.
Qed.

Lemma l_undo_spec us : forall l l', rp l us = Some l' ->
  fold_right l_undo1 (Some l') us = Some l.
Proof.
  induction us as [|u us IH]; intros l l' H.
  - unfold replay in H. cbn in *. congruence.
  - destruct (rp_cons_inv _ _ _ _ H) as (l1 & H1 & H2). cbn [fold_right]. rewrite (IH _ _ H2).
    destruct (rp1_inv qeqb_spec _ _ _ H1) as [o v -> Hn ->|v -> ->|o -> ->]; unfold l_undo1; cbn [uold uval uidx change placement removal].
    + rewrite (proj2 (Nat.ltb_lt _ _)). 2:{ rewrite lset_length. eapply nth_error_lt; eauto. }
      f_equal. rewrite lset_lset. now apply lset_same.
    + rewrite (proj2 (Nat.ltb_lt _ _)) by (rewrite app_length; cbn; lia).
      rewrite firstn_exact by auto. rewrite skipn_all2 by (rewrite app_length; cbn; lia).
      now rewrite app_nil_r.
    + rewrite (proj2 (Nat.leb_le _ _)) by lia. now rewrite firstn_all, skipn_all.
Qed.

Lemma l_revert_spec c d : LInv c d -> l_revert d = Some (a_init c).
Proof.
  intros [H1 H2]. unfold l_revert, a_init. rewrite (l_undo_spec _ _ _ H2). congruence.
Qed.

(** The whole vector. *)
Definition DInv (c : list (list num)) (d : list (@adata num)) : Prop := Forall2 LInv c d.

Lemma Forall2_nth_r {A B} (R : A -> B -> Prop) l1 l2 k y : Forall2 R l1 l2 -> nth_error l2 k = Some y ->
  exists x, nth_error l1 k = Some x /\ R x y.
Proof.
  intros H. revert k. induction H as [|a b l1 l2 Hab H IH]; intros [|k] E; cbn in *; try discriminate.
  - injection E as <-. eauto.
  - eauto.
Qed.
Lemma Forall2_nth_l {A B} (R : A -> B -> Prop) l1 l2 k x : Forall2 R l1 l2 -> nth_error l1 k = Some x ->
  exists y, nth_error l2 k = Some y /\ R x y.
Proof.
  intros H. revert k. induction H as [|a b l1 l2 Hab H IH]; intros [|k] E; cbn in *; try discriminate.
  - injection E as <-. eauto.
  - eauto.
Qed.
Lemma Forall2_lset_r {A B} (R : A -> B -> Prop) l1 l2 k x y : Forall2 R l1 l2 ->
  nth_error l1 k = Some x -> R x y -> Forall2 R l1 (lset k y l2).
Proof.
  intros H. revert k. induction H as [|a b l1 l2 Hab H IH]; intros [|k] E HR; cbn in *; try discriminate.
  - injection E as <-. constructor; auto.
  - constructor; eauto.
Qed.

Lemma on_list_spec c d k f x x' :
  DInv c d -> nth_error d k = Some x ->
  (forall ck, LInv ck x -> exists y, f x = Some y /\ LInv ck y /\ abuf y = x') ->
  exists d', on_list d k f = Some d' /\ DInv c d' /\ dl_view d' = lset k x' (dl_view d).
Proof.
  intros HI Hx Hf. unfold on_list. rewrite Hx.
  destruct (Forall2_nth_r _ _ _ _ _ HI Hx) as (ck & Hck & HL).
  destruct (Hf ck HL) as (y & -> & Hy & <-). eexists. split; [reflexivity|]. split.
  - eapply Forall2_lset_r; eauto.
  - unfold dl_view. now rewrite map_lset.
Qed.

Lemma dl_view_get d k x : nth_error d k = Some x -> nth_error (dl_view d) k = Some (abuf x).
Proof. intros H. unfold dl_view. now rewrite nth_error_map, H. Qed.
Lemma dl_view_nth d k l : nth_error (dl_view d) k = Some l -> exists x, nth_error d k = Some x /\ abuf x = l.
Proof.
  intros H. unfold dl_view in H. rewrite nth_error_map in H. 
  destruct (nth_error d k) as [x|]; [|discriminate]. exists x. split; congruence.
Qed.

Lemma dl_step_spec c d o st : DInv c d -> dlspec_op (c, dl_view d) o = Some st ->
  exists d', dl_step d o = Some d' /\ DInv (fst st) d' /\ dl_view d' = snd st.
Proof.
  intros HI H. destruct o as [k dest src|k i j|f i t j|k vs| |]; cbn [dlspec_op dl_step] in *.
  - destruct (nth_error (dl_view d) k) as [l|] eqn:E; [|discriminate].
    destruct (dl_view_nth _ _ _ E) as (x & Hx & <-).
    destruct (Nat.ltb_spec dest (length (abuf x))), (Nat.ltb_spec src (length (abuf x))); try discriminate.
    injection H as <-. unfold dl_rotate. eapply on_list_spec; eauto.
    intros ck HL. apply l_rotate_spec; auto.
  - destruct (nth_error (dl_view d) k) as [l|] eqn:E; [|discriminate].
    destruct (dl_view_nth _ _ _ E) as (x & Hx & <-).
    destruct (Nat.ltb_spec i (length (abuf x))), (Nat.ltb_spec j (length (abuf x))); try discriminate.
    injection H as <-. unfold dl_swap. eapply on_list_spec; eauto.
    intros ck HL. apply l_swap_spec; auto.
  - destruct (nth_error (dl_view d) f) as [lf|] eqn:Ef; [|discriminate].
    destruct (nth_error (dl_view d) t) as [lt|] eqn:Et; [|discriminate].
    destruct (nth_error lf i) as [v|] eqn:Ev; [|discriminate].
    destruct (Nat.leb_spec j (length lt)) as [Hj|]; [|discriminate].
    destruct (dl_view_nth _ _ _ Ef) as (x & Hx & <-). destruct (dl_view_nth _ _ _ Et) as (y & Hy & <-).
    unfold dl_pop_to. rewrite Hx, Hy.
    rewrite (proj2 (Nat.ltb_lt _ _)) by (eapply nth_error_lt; eauto).
    rewrite (proj2 (Nat.leb_le _ _)) by auto. cbn [andb negb].
    destruct (Forall2_nth_r _ _ _ _ _ HI Hx) as (cf & Hcf & HL).
    destruct (l_pop_spec cf x i v HL Ev) as (x' & -> & HL' & Hb).
    assert (HI1 : DInv c (lset f x' d)) by (eapply Forall2_lset_r; eauto).
    assert (Hv1 : dl_view (lset f x' d) = lset f (delete_at i (abuf x)) (dl_view d)).
    { unfold dl_view. rewrite map_lset. congruence. }
    rewrite <- Hv1 in H.
    destruct (nth_error (dl_view (lset f x' d)) t) as [l|] eqn:El; [|discriminate].
    injection H as <-. destruct (dl_view_nth _ _ _ El) as (z & Hz & <-).
    eapply on_list_spec; eauto. intros ck HLz. apply l_insert_spec; auto.
    rewrite nth_error_lset in Hz. destruct (Nat.eqb_spec f t) as [->|Hne].
    + cbn [andb] in Hz. rewrite (proj2 (Nat.ltb_lt _ _)) in Hz by (eapply nth_error_lt; eauto).
      injection Hz as <-. rewrite Hb.
      replace y with x in Hj by congruence.
      apply delete_at_perm, Permutation_length in Ev. cbn in Ev. lia.
    + cbn [andb] in Hz. replace z with y by congruence. lia.
  - destruct (nth_error (dl_view d) k) as [l|] eqn:E; [|discriminate].
    destruct (dl_view_nth _ _ _ E) as (x & Hx & <-). injection H as <-.
    unfold dl_set. eapply on_list_spec; eauto.
    intros ck HL. eexists. split; [reflexivity|]. now apply l_assign_spec.
  - injection H as <-. eexists. split; [reflexivity|]. cbn [fst snd].
    unfold dl_commit, dl_view. clear -HI. induction HI as [|ck x c d HL HI [IH1 IH2]]; cbn.
    + split; [constructor|reflexivity].
    + rewrite (l_commit_spec _ _ HL). cbn [a_init abuf]. split; [|congruence].
      constructor; auto. apply Inv_init.
  - injection H as <-. cbn [fst snd].
    assert (E : dl_revert d = Some (map (@a_init num) c)).
    { unfold dl_revert. clear -HI. induction HI as [|ck x c d HL HI IH]; cbn; auto.
      rewrite (l_revert_spec _ _ HL). cbn in IH. rewrite IH. reflexivity. }
    rewrite E. eexists. split; [reflexivity|]. split.
    + clear. induction c; cbn; constructor; auto. apply Inv_init.
    + unfold dl_view. rewrite map_map. cbn [a_init abuf]. apply map_id.
Qed.

Lemma dl_run_spec os : forall c d st, DInv c d -> dlspec_run (c, dl_view d) os = Some st ->
  exists d', dl_run d os = Some d' /\ DInv (fst st) d' /\ dl_view d' = snd st.
Proof.
  induction os as [|o os IH]; intros c d st HI H; unfold dlspec_run, dl_run in *; cbn [ofold] in *.
  - injection H as <-. eauto.
  - destruct (dlspec_op (c, dl_view d) o) as [st1|] eqn:E; [|discriminate].
    destruct (dl_step_spec _ _ _ _ HI E) as (d1 & -> & HI1 & Hv1).
    apply (IH (fst st1)); auto. rewrite Hv1. now destruct st1.
Qed.

Lemma concat_lset_perm (ls : list (list num)) k l : nth_error ls k = Some l ->
  exists rest, Permutation (concat ls) (l ++ rest) /\
    forall l', Permutation (concat (lset k l' ls)) (l' ++ rest).
Proof.
  revert k. induction ls as [|a ls IH]; intros [|k] H; cbn in *; try discriminate.
  - injection H as <-. exists (concat ls). split; auto.
  - destruct (IH _ H) as (rest & H1 & H2). exists (a ++ rest). split.
    + rewrite H1, !app_assoc. apply Permutation_app_tail, Permutation_app_comm.
    + intros l'. rewrite H2, !app_assoc. apply Permutation_app_tail, Permutation_app_comm.
Qed.

Definition no_set (o : dlop) : Prop := match o with DSet _ _ => False | _ => True end.

Lemma dlspec_op_perm c ls o c' ls' : no_set o -> Permutation (concat c) (concat ls) ->
  dlspec_op (c, ls) o = Some (c', ls') ->
  Permutation (concat c) (concat c') /\ Permutation (concat c') (concat ls').
Proof.
  intros Hn HP H. destruct o as [k dest src|k i j|f i t j|k vs| |]; cbn [dlspec_op] in *.
  - destruct (nth_error ls k) as [l|] eqn:E; [|discriminate]. destruct (_ && _); [|discriminate].
    injection H as <- <-. split; auto. rewrite HP. destruct (concat_lset_perm _ _ _ E) as (rest & H1 & H2).
    rewrite H1, H2. apply Permutation_app_tail. apply move_elem_perm.
  - destruct (nth_error ls k) as [l|] eqn:E; [|discriminate]. destruct (_ && _); [|discriminate].
    injection H as <- <-. split; auto. rewrite HP. destruct (concat_lset_perm _ _ _ E) as (rest & H1 & H2).
    rewrite H1, H2. apply Permutation_app_tail. apply swap_elems_perm.
  - destruct (nth_error ls f) as [lf|] eqn:Ef; [|discriminate].
    destruct (nth_error ls t) as [lt|] eqn:Et; [|discriminate].
    destruct (nth_error lf i) as [v|] eqn:Ev; [|discriminate].
    destruct (j <=? length lt); [|discriminate].
    destruct (nth_error (lset f (delete_at i lf) ls) t) as [l|] eqn:El; [|discriminate].
    injection H as <- <-. split; auto. rewrite HP.
    destruct (concat_lset_perm _ _ _ Ef) as (r1 & H1 & H2).
    destruct (concat_lset_perm _ _ _ El) as (r2 & H3 & H4).
    rewrite H4, H1, <- insert_at_perm. cbn [app]. rewrite <- H3, H2.
    change (v :: delete_at i lf ++ r1) with ((v :: delete_at i lf) ++ r1).
    apply Permutation_app_tail. now apply delete_at_perm.
  - destruct Hn.
  - injection H as <- <-. auto.
  - injection H as <- <-. auto.
Qed.

Lemma dlspec_run_perm os : forall c ls c' ls', Forall no_set os -> Permutation (concat c) (concat ls) ->
  dlspec_run (c, ls) os = Some (c', ls') -> Permutation (concat c) (concat ls').
Proof.
  induction os as [|o os IH]; intros c ls c' ls' Hn HP H; unfold dlspec_run in *; cbn [ofold] in *.
  - injection H as <- <-. auto.
  - inversion_clear Hn. destruct (dlspec_op (c, ls) o) as [[c1 ls1]|] eqn:E; [|discriminate].
    destruct (dlspec_op_perm _ _ _ _ _ H0 HP E) as [P1 P2]. rewrite P1. eapply IH; eauto.
Qed.

Lemma list_partition_perm n a b : Permutation (concat a) (concat b) -> list_partition n a -> list_partition n b.
Proof.
  intros HP [H1 H2]. split.
  - eapply Permutation_NoDup; eauto.
  - intros x. rewrite <- H2. split; apply Permutation_in; auto. now symmetry.
Qed.

(** Initialisation. *)
Definition zcond (n : nat) (x : num) : Prop := exists z, x = zq z /\ (0 <= z < Z.of_nat n)%Z.

Lemma dl_check1_some n seen el : forall s', dl_check1 n (Some seen) el = Some s' <->
  (exists z, el = zq z /\ (0 <= z < Z.of_nat n)%Z /\ ~ In z seen /\ s' = z :: seen).
Proof.
  intros s'. unfold dl_check1. split.
  - destruct (qltb_spec el 0) as [|Hn]; [discriminate|]. cbn [orb].
    destruct (qeqb_spec (zq (qtrunc el)) el) as [E|]; [|discriminate]. cbn [negb].
    destruct (Z.leb_spec (Z.of_nat n) (qtrunc el)); [discriminate|].
    destruct (existsb _ seen) eqn:Ex; [discriminate|]. intros H'. injection H' as <-.
    exists (qtrunc el). split; auto. split; [|split; auto].
    + rewrite <- E, <- zq_0, zq_lt in Hn. lia.
    + intros Hin. assert (existsb (Z.eqb (qtrunc el)) seen = true); [|congruence].
      apply existsb_exists. exists (qtrunc el). split; auto. lia.
  - intros (z & -> & Hz & Hin & ->). rewrite qtrunc_zq, qeqb_refl.
    rewrite <- zq_0. destruct (qltb_spec (zq z) (zq 0)) as [H|]; [rewrite zq_lt in H; lia|].
    cbn [orb negb]. destruct (Z.leb_spec (Z.of_nat n) z); [lia|].
    destruct (existsb _ seen) eqn:Ex; auto. apply existsb_exists in Ex. destruct Ex as (y & Hy & E).
    exfalso. apply Hin. replace z with y by lia. auto.
Qed.

Lemma dl_fold_none n l : fold_left (dl_check1 n) l None = None.
Proof. induction l; cbn; auto. Qed.

Lemma fold_concat {A B} (f : A -> B -> A) ls a :
  fold_left (fun a l => fold_left f l a) ls a = fold_left f (concat ls) a.
Proof. revert a. induction ls as [|l ls IH]; intros a; cbn; auto. rewrite fold_left_app. apply IH. Qed.

Lemma dl_scan n l : forall seen s', fold_left (dl_check1 n) l (Some seen) = Some s' <->
  (exists zs, l = map zq zs /\ Forall (fun z => (0 <= z < Z.of_nat n)%Z) zs /\
     NoDup zs /\ (forall z, In z zs -> ~ In z seen) /\ s' = rev zs ++ seen).
Proof.
  induction l as [|a l IH]; intros seen s'; cbn [fold_left].
  - split.
    + intros H. injection H as <-. exists []. repeat split; auto; constructor.
    + intros ([|z zs] & E & _ & _ & _ & ->); [reflexivity|discriminate].
  - split.
    + destruct (dl_check1 n (Some seen) a) as [s1|] eqn:E; [|rewrite dl_fold_none; discriminate].
      apply dl_check1_some in E. destruct E as (z & -> & Hz & Hin & ->).
      intros H. apply IH in H. destruct H as (zs & -> & Hzs & Hnd & Hd & ->).
      exists (z :: zs). split; auto. split; [constructor; auto|]. split.
      { constructor; auto. intros Hc. apply (Hd _ Hc). now left. }
      split; [|cbn; now rewrite <- app_assoc].
      intros w [<-|Hw]; auto. intros Hs. apply (Hd _ Hw). now right.
    + intros ([|z zs] & E & Hzs & Hnd & Hd & ->); [discriminate|]. cbn in E.
      inversion_clear Hzs. inversion_clear Hnd.
      assert (Ea : a = zq z) by congruence. assert (El : l = map zq zs) by congruence.
      assert (Hc : dl_check1 n (Some seen) a = Some (z :: seen)).
      { apply dl_check1_some. exists z. repeat split; auto; try apply H. apply Hd. now left. }
      rewrite Hc. apply IH. exists zs. repeat split; auto.
      * intros w Hw [<-|Hs]; auto. eapply Hd; [right; eauto|auto].
      * cbn. now rewrite <- app_assoc.
Qed.

Lemma list_partition_iff n ls :
  list_partition n ls <-> exists zs, concat ls = map zq zs /\ NoDup zs /\
    Forall (fun z => (0 <= z < Z.of_nat n)%Z) zs /\ length zs = n.
Proof.
  split.
  - intros [Hnd Hin].
    assert (Hex : exists zs, concat ls = map zq zs).
    { assert (H : forall x, In x (concat ls) -> exists z, x = zq z).
      { intros x Hx. apply Hin in Hx. destruct Hx as (z & -> & _). eauto. }
      clear -H. induction (concat ls) as [|a l IH]; [exists []; auto|].
      destruct (H a) as [z ->]; [now left|]. destruct IH as [zs ->]; [intros; apply H; now right|].
      exists (z :: zs). reflexivity. }
    destruct Hex as [zs E]. exists zs. split; auto. rewrite E in *.
    assert (Hz : NoDup zs) by (eapply NoDup_map_inv; eauto). split; auto.
    assert (Hf : forall z, In z zs <-> (0 <= z < Z.of_nat n)%Z).
    { intros z. split.
      - intros Hz'. assert (In (zq z) (map zq zs)) by now apply in_map. apply Hin in H.
        destruct H as (w & Hw & Hr). apply zq_inj in Hw. now subst.
      - intros Hr. assert (In (zq z) (map zq zs)) by (apply Hin; eauto).
        apply in_map_iff in H. destruct H as (w & Hw & Hi). apply zq_inj in Hw. now subst. }
    split; [apply Forall_forall; apply Hf|].
    assert (HP : Permutation zs (map Z.of_nat (seq 0 n))).
    { apply NoDup_Permutation; auto.
      - apply FinFun.Injective_map_NoDup; [intros a b; lia|apply seq_NoDup].
      - intros z. rewrite Hf, in_map_iff. split.
        + intros Hr. exists (Z.to_nat z). split; [lia|]. apply in_seq. lia.
        + intros (k & <- & Hk). apply in_seq in Hk. lia. }
    apply Permutation_length in HP. now rewrite map_length, seq_length in HP.
  - intros (zs & E & Hnd & Hf & Hlen). unfold list_partition. rewrite E. split.
    + apply FinFun.Injective_map_NoDup; auto. intros a b. apply zq_inj.
    + assert (HP : Permutation zs (map Z.of_nat (seq 0 n))).
      { apply NoDup_Permutation_bis; auto.
        - rewrite map_length, seq_length. lia.
        - intros z Hz. rewrite Forall_forall in Hf. apply Hf in Hz. apply in_map_iff.
          exists (Z.to_nat z). split; [lia|]. apply in_seq. lia. }
      intros x. rewrite in_map_iff. split.
      * intros (z & <- & Hz). exists z. split; auto. rewrite Forall_forall in Hf. auto.
      * intros (z & -> & Hz). exists z. split; auto. eapply Permutation_in; [symmetry; eauto|].
        apply in_map_iff. exists (Z.to_nat z). split; [lia|]. apply in_seq. lia.
Qed.

Lemma dl_init_spec n m contents :
  (length contents = m /\ list_partition n contents ->
     dl_init n m contents = Ok (map (@a_init num) contents)) /\
  (~ (length contents = m /\ list_partition n contents) -> dl_init n m contents = Throw).
Proof.
  unfold dl_init. split.
  - intros [Hm HP]. rewrite (proj2 (Nat.eqb_eq _ _) Hm). cbn [negb]. rewrite fold_concat.
    apply list_partition_iff in HP. destruct HP as (zs & E & Hnd & Hf & Hlen). rewrite E.
    assert (Hs : fold_left (dl_check1 n) (map zq zs) (Some []) = Some (rev zs ++ [])).
    { apply dl_scan. exists zs. repeat split; auto. }
    rewrite Hs. rewrite app_nil_r, rev_length, Hlen, Nat.eqb_refl. reflexivity.
  - intros Hno. destruct (Nat.eqb_spec (length contents) m) as [Hm|]; cbn [negb]; auto.
    rewrite fold_concat.
    destruct (fold_left (dl_check1 n) (concat contents) (Some [])) as [seen|] eqn:E; auto.
    apply dl_scan in E. destruct E as (zs & E & Hf & Hnd & _ & ->).
    rewrite app_nil_r, rev_length. destruct (Nat.eqb_spec (length zs) n) as [Hl|]; cbn [negb]; auto.
    exfalso. apply Hno. split; auto. apply list_partition_iff. exists zs. auto.
Qed.

Lemma DInv_init contents : DInv contents (map (@a_init num) contents).
Proof. induction contents; cbn; constructor; auto. apply Inv_init. Qed.
Lemma dl_view_init contents : dl_view (map (@a_init num) contents) = contents.
Proof. unfold dl_view. rewrite map_map. cbn. apply map_id. Qed.

Lemma dl_init_default_spec n m : 0 < m ->
  dl_init_default n m = Some (map (@a_init num) (qrange n :: repeat [] (m - 1))) /\
  list_partition n (qrange n :: repeat [] (m - 1)).
Proof.
  intros Hm. destruct m as [|m]; [lia|]. replace (S m - 1) with m by lia. split.
  - unfold dl_init_default. cbn. unfold a_init at 1. rewrite qrange_length.
    do 2 f_equal. induction m; cbn; [reflexivity|]. f_equal. apply IHm. lia.
  - unfold list_partition. replace (concat (qrange n :: repeat [] m)) with (qrange n).
    + split; [apply qrange_NoDup|]. apply qrange_In.
    + cbn. replace (concat (repeat [] m)) with (@nil num); [now rewrite app_nil_r|].
      clear. induction m; cbn; auto.
Qed.

(** Default move. *)
Lemma dl_choose_spec draw sizes : (forall k, (draw k <= 1)%Qc) -> forall k total chosen,
  let r := dl_choose draw k sizes total chosen in
  (r = chosen /\ (total = 0 -> Forall (eq 0) sizes)) \/
  (k <= r /\ exists s, nth_error sizes (r - k) = Some s /\ 0 < s).
Proof.
  intros Hd. induction sizes as [|s sizes IH]; intros k total chosen; cbn [dl_choose].
  - left. split; auto.
  - destruct (Nat.ltb_spec 0 s) as [Hs|Hs].
    + destruct (qleb_spec (draw k) (nq s / nq (total + s))%Qc) as [Hq|Hq].
      * destruct (IH (S k) (total + s) k) as [[-> _]|(H1 & x & H2 & H3)].
        -- right. split; auto. rewrite Nat.sub_diag. cbn. eauto.
        -- right. split; [lia|]. replace (dl_choose draw (S k) sizes (total + s) k - k)
             with (S (dl_choose draw (S k) sizes (total + s) k - S k)) by lia. cbn. eauto.
      * assert (Ht : 0 < total).
        { destruct total; [|lia]. exfalso. apply Hq. cbn [Nat.add].
          rewrite qdiv_same; [apply Hd|].
          unfold nq. rewrite <- zq_0. intros E. apply zq_inj in E. lia. }
        destruct (IH (S k) (total + s) chosen) as [[-> _]|(H1 & x & H2 & H3)].
        -- left. split; auto. lia.
        -- right. split; [lia|]. replace (dl_choose draw (S k) sizes (total + s) chosen - k)
             with (S (dl_choose draw (S k) sizes (total + s) chosen - S k)) by lia. cbn. eauto.
    + destruct (IH (S k) total chosen) as [[-> H]|(H1 & x & H2 & H3)].
      * left. split; auto. intros Ht. constructor; auto. lia.
      * right. split; [lia|]. replace (dl_choose draw (S k) sizes total chosen - k)
          with (S (dl_choose draw (S k) sizes total chosen - S k)) by lia. cbn. eauto.
Qed.

(** ** Disjoint bit sets *)
Definition row (n s : nat) (l : list num) : list num := firstn n (skipn (s * n) l).

Lemma nth_error_row n s l e : nth_error (row n s l) e = if e <? n then nth_error l (s * n + e) else None.
Proof. unfold row. now rewrite nth_error_firstn, nth_error_skipn. Qed.

Lemma pos_inj n s e t e' : e < n -> e' < n -> s * n + e = t * n + e' -> s = t /\ e = e'.
Proof.
  intros H1 H2 H. assert (s = t) by nia. subst. split; auto. lia.
Qed.

Lemma row_lset n s e x l t : e < n -> s * n + e < length l ->
  row n t (lset (s * n + e) x l) = if s =? t then lset e x (row n t l) else row n t l.
Proof.
  intros He Hl. apply nth_error_ext. intros i. rewrite nth_error_row.
  destruct (Nat.eqb_spec s t) as [->|Hne].
  - rewrite !nth_error_lset, nth_error_row. unfold row. rewrite firstn_length, skipn_length.
    destruct (Nat.ltb_spec i n); destruct (Nat.eqb_spec e i); cbn [andb]; try lia; auto.
    + subst. rewrite Nat.eqb_refl. cbn [andb]. rewrite !(proj2 (Nat.ltb_lt _ _)) by lia. reflexivity.
    + destruct (Nat.eqb_spec (t * n + e) (t * n + i)); [lia|]. reflexivity.
  - rewrite nth_error_row. destruct (Nat.ltb_spec i n); auto. rewrite nth_error_lset_neq; auto.
    intros E. apply pos_inj in E; auto. lia.
Qed.

Lemma rows_ext n m l l' : length l = m * n -> length l' = m * n ->
  (forall s, s < m -> row n s l = row n s l') -> l = l'.
Proof.
  intros H1 H2 H. apply nth_error_ext. intros i.
  destruct (le_lt_dec (m * n) i) as [Hge|Hlt].
  - rewrite !(proj2 (nth_error_None _ _)) by lia. reflexivity.
  - assert (Hn : n <> 0) by nia.
    pose proof (Nat.div_mod i n Hn) as Hd. pose proof (Nat.mod_upper_bound i n Hn) as Hm.
    assert (Hs : i / n < m) by (apply Nat.div_lt_upper_bound; lia).
    specialize (H _ Hs). apply (f_equal (fun r => nth_error r (i mod n))) in H.
    rewrite !nth_error_row in H. rewrite (proj2 (Nat.ltb_lt _ _)) in H by lia.
    replace (i / n * n + i mod n) with i in H by lia. exact H.
Qed.

Lemma ind_neq w a b : ind w a <> ind w b -> (w = a /\ w <> b) \/ (w <> a /\ w = b).
Proof.
  unfold ind. destruct (Nat.eqb_spec w a), (Nat.eqb_spec w b); intros H; try (exfalso; apply H; reflexivity); auto.
Qed.

Definition BInv (n m : nat) (c w : list nat) (d : bsdata) : Prop :=
  bsprim d = n /\ bsnum d = m /\ length (bsdat d) = m * n /\ length (bsdiffs d) = m /\
  length c = n /\ length w = n /\ Forall (fun s => s < m) c /\ Forall (fun s => s < m) w /\
  forall s, s < m -> row n s (bsdat d) = indicator w s /\
    exists us, nth_error (bsdiffs d) s = Some us /\ Forall is_change us /\
      rp (indicator c s) us = Some (indicator w s).

Lemma indicator_nth w s e : nth_error (indicator w s) e =
  match nth_error w e with Some x => Some (ind x s) | None => None end.
Proof. unfold indicator. apply nth_error_map. Qed.
Lemma indicator_length w s : length (indicator w s) = length w.
Proof. apply map_length. Qed.
Lemma indicator_lset w s e x : indicator (lset e x w) s = lset e (ind x s) (indicator w s).
Proof. unfold indicator. now rewrite map_lset. Qed.

Lemma BInv_nth n m c w d s e x : BInv n m c w d -> s < m -> nth_error w e = Some x ->
  nth_error (bsdat d) (s * n + e) = Some (ind x s).
Proof.
  intros (H1 & H2 & H3 & H4 & H5 & H6 & H7 & H8 & H9) Hs He.
  destruct (H9 s Hs) as [Hr _]. apply (f_equal (fun r => nth_error r e)) in Hr.
  rewrite nth_error_row, indicator_nth, He in Hr.
  rewrite (proj2 (Nat.ltb_lt _ _)) in Hr; auto. apply nth_error_lt in He. lia.
Qed.

Lemma bs_swap_spec n m c w d f t e st :
  BInv n m c w d -> bspec_op n m (c, w) (BSwap f t e) = Some st ->
  exists d', bs_swap d f t e = Some d' /\ BInv n m (fst st) (snd st) d'.
Proof.
  intros HI H. cbn [bspec_op] in H. destruct (nth_error w e) as [x|] eqn:Ex; [|discriminate].
  destruct (Nat.ltb_spec f m) as [Hf|]; [|discriminate]. destruct (Nat.ltb_spec t m) as [Ht|]; [|discriminate].
  injection H as <-. cbn [fst snd].
  pose proof (BInv_nth _ _ _ _ _ _ _ _ HI Hf Ex) as Ef. pose proof (BInv_nth _ _ _ _ _ _ _ _ HI Ht Ex) as Et.
  pose proof HI as (H1 & H2 & H3 & H4 & H5 & H6 & H7 & H8 & H9).
  unfold bs_swap. rewrite H1, Ef, Et. destruct (qeqb_spec (ind x f) (ind x t)) as [E|E].
  - exists d. split; auto. replace (lset e _ w) with w; auto. symmetry. apply lset_same. rewrite Ex.
    f_equal. unfold ind in E. destruct (Nat.eqb_spec x f), (Nat.eqb_spec x t); auto; subst; auto;
      apply zq_inj in E; discriminate.
  - destruct (H9 f Hf) as (_ & uf & Euf & _). destruct (H9 t Ht) as (_ & ut & Eut & _).
    assert (Hft : f <> t) by (intros ->; auto).
    rewrite Euf. rewrite nth_error_lset_neq by auto. rewrite Eut.
    eexists. split; [reflexivity|].
    set (w' := lset e (if x =? f then t else if x =? t then f else x) w).
    assert (He : e < n) by (apply nth_error_lt in Ex; lia).
    assert (Hpf : f * n + e < length (bsdat d)) by (eapply nth_error_lt; eauto).
    assert (Hpt : t * n + e < length (bsdat d)) by (eapply nth_error_lt; eauto).
    assert (Hx' : forall s, indicator w' s = if s =? f then lset e (ind x t) (indicator w s)
               else if s =? t then lset e (ind x f) (indicator w s) else indicator w s).
    { intros s. unfold w'. rewrite indicator_lset.
      destruct (ind_neq _ _ _ E) as [[-> Hn]|[Hn ->]].
      - rewrite Nat.eqb_refl. unfold ind.
        destruct (Nat.eqb_spec s f) as [->|Hsf].
        + rewrite (proj2 (Nat.eqb_neq t f)), (proj2 (Nat.eqb_neq f t)) by auto. reflexivity.
        + destruct (Nat.eqb_spec s t) as [->|Hst].
          * now rewrite !Nat.eqb_refl.
          * rewrite (proj2 (Nat.eqb_neq t s)) by auto. apply lset_same. rewrite indicator_nth, Ex.
            unfold ind. now rewrite (proj2 (Nat.eqb_neq f s)) by auto.
      - rewrite (proj2 (Nat.eqb_neq t f)) by auto. rewrite Nat.eqb_refl. unfold ind.
        destruct (Nat.eqb_spec s f) as [->|Hsf].
        + now rewrite !Nat.eqb_refl.
        + destruct (Nat.eqb_spec s t) as [->|Hst].
          * rewrite (proj2 (Nat.eqb_neq t f)), (proj2 (Nat.eqb_neq f t)) by auto. reflexivity.
          * rewrite (proj2 (Nat.eqb_neq f s)) by auto. apply lset_same. rewrite indicator_nth, Ex.
            unfold ind. now rewrite (proj2 (Nat.eqb_neq t s)) by auto. }
    repeat split; cbn [bsprim bsnum bsdat bsdiffs]; auto; try (rewrite ?lset_length; auto; fail).
    + unfold w'. now rewrite lset_length.
    + apply Forall_forall. intros y Hy. apply In_nth_error in Hy. destruct Hy as [i Hi].
      unfold w' in Hi. rewrite nth_error_lset in Hi. rewrite Forall_forall in H8.
      destruct ((e =? i) && (e <? length w)).
      * injection Hi as <-. destruct (x =? f); auto. destruct (x =? t); auto.
        apply H8. eapply nth_error_In; eauto.
      * apply H8. eapply nth_error_In; eauto.
    + rewrite row_lset by (rewrite ?lset_length; auto). rewrite row_lset by auto.
      destruct (H9 s H) as (Hr & _). rewrite Hx', Hr.
      destruct (Nat.eqb_spec s f) as [->|Hsf].
      * rewrite Nat.eqb_refl. now rewrite (proj2 (Nat.eqb_neq t f)) by auto.
      * rewrite (proj2 (Nat.eqb_neq f s)) by auto. destruct (Nat.eqb_spec s t) as [->|Hst].
        -- now rewrite Nat.eqb_refl.
        -- now rewrite (proj2 (Nat.eqb_neq t s)) by auto.
    + destruct (H9 s H) as (Hr & us & Eus & Hc & Hrp). rewrite Hx'.
      rewrite nth_error_lset, lset_length, nth_error_lset.
      assert (Hes : nth_error (indicator w s) e = Some (ind x s)) by now rewrite indicator_nth, Ex.
      destruct (Nat.eqb_spec s f) as [->|Hsf].
      * rewrite (proj2 (Nat.eqb_neq t f)) by auto. cbn [andb]. rewrite Nat.eqb_refl.
        rewrite (proj2 (Nat.ltb_lt _ _)) by lia. cbn [andb]. eexists. split; [reflexivity|].
        replace uf with us by congruence. split.
        -- apply Forall_app. split; auto. constructor; auto. apply change_is_change.
        -- eapply rp_snoc; eauto. apply rp_change; [apply qeqb_spec|auto].
      * destruct (Nat.eqb_spec s t) as [->|Hst].
        -- rewrite Nat.eqb_refl. rewrite (proj2 (Nat.ltb_lt _ _)) by lia. cbn [andb].
           eexists. split; [reflexivity|]. replace ut with us by congruence. split.
           ++ apply Forall_app. split; auto. constructor; auto. apply change_is_change.
           ++ eapply rp_snoc; eauto. apply rp_change; [apply qeqb_spec|auto].
        -- rewrite (proj2 (Nat.eqb_neq t s)), (proj2 (Nat.eqb_neq f s)) by auto. cbn [andb]. eauto.
Qed.

Lemma bs_commit_spec n m c w d : BInv n m c w d -> BInv n m w w (bs_commit d).
Proof.
  intros (H1 & H2 & H3 & H4 & H5 & H6 & H7 & H8 & H9).
  repeat split; cbn [bs_commit bsprim bsnum bsdat bsdiffs]; auto.
  - now rewrite map_length.
  - apply H9; auto.
  - destruct (H9 s H) as (_ & us & Eus & _). rewrite nth_error_map, Eus.
    exists []. repeat split; auto.
Qed.

Lemma undo_row n s us : forall data r, length r = n -> s * n + n <= length data ->
  row n s data = r -> forall r', fold_right c_undo1 (Some r) us = Some r' ->
  Forall (fun u => uidx u < n) us ->
  exists data', fold_right (bs_undo1 (s * n)) (Some data) us = Some data' /\
    length data' = length data /\ row n s data' = r' /\ length r' = n /\
    forall t, t <> s -> row n t data' = row n t data.
Proof.
  induction us as [|u us IH]; intros data r Hr Hl Hrow r' H Hi; cbn [fold_right] in *.
  - injection H as <-. exists data. auto.
  - inversion_clear Hi as [|? ? Hu Hus].
    destruct (fold_right c_undo1 (Some r) us) as [r1|] eqn:E; [|discriminate].
    destruct (IH data r Hr Hl Hrow r1 E Hus) as (d1 & E1 & Hl1 & Hr1 & Hlr1 & Ho1).
    rewrite E1. unfold c_undo1 in H. unfold bs_undo1. destruct (uold u) as [o|]; [|discriminate].
    injection H as <-. rewrite (proj2 (Nat.ltb_lt _ _)) by lia. eexists. split; [reflexivity|].
    rewrite lset_length. split; auto. split; [|split].
    + rewrite row_lset by (auto; lia). rewrite Nat.eqb_refl. congruence.
    + now rewrite lset_length.
    + intros t Ht. rewrite row_lset by (auto; lia). rewrite (proj2 (Nat.eqb_neq s t)) by auto. auto.
Qed.

Lemma replay_change_idx us : forall (l l' : list num), Forall is_change us -> rp l us = Some l' ->
  Forall (fun u => uidx u < length l) us.
Proof.
  induction us as [|u us IH]; intros l l' Hc H; constructor; inversion_clear Hc;
    destruct (rp_cons_inv _ _ _ _ H) as (l1 & H2 & H3);
    destruct (replay1_is_change _ qeqb_spec _ _ _ H0 H2) as (o & v & Ho & Hv & Hn & ->).
  - eapply nth_error_lt; eauto.
  - apply IH in H3; auto. now rewrite lset_length in H3.
Qed.

Lemma bs_revert_spec n m c w d : BInv n m c w d ->
  exists d', bs_revert d = Some d' /\ BInv n m c c d'.
Proof.
  intros (H1 & H2 & H3 & H4 & H5 & H6 & H7 & H8 & H9). unfold bs_revert. rewrite H1, H2.
  assert (Hk : forall k, k <= m -> exists data,
    ofold (bs_undo_set n (bsdiffs d)) (bsdat d) (seq 0 k) = Some data /\ length data = m * n /\
    (forall s, s < m -> row n s data = indicator (if s <? k then c else w) s)).
  { induction k as [|k IH]; intros Hkm.
    - exists (bsdat d). split; [reflexivity|]. split; auto. intros s Hs. cbn. apply H9; auto.
    - destruct IH as (data & E & Hl & Hr); [lia|]. rewrite seq_S, ofold_app, E. cbn [ofold Nat.add].
      unfold bs_undo_set. destruct (H9 k) as (_ & us & Eus & Hc & Hrp); [lia|]. rewrite Eus.
      assert (Hidx := replay_change_idx _ _ _ Hc Hrp). rewrite indicator_length, H5 in Hidx.
      assert (Hund := undo_changes _ qeqb_spec _ _ _ Hc Hrp).
      destruct (undo_row n k us data (indicator w k)) with (r' := indicator c k)
        as (data' & E' & Hl' & Hr' & _ & Ho); auto.
      + now rewrite indicator_length.
      + nia.
      + rewrite Hr by lia. now rewrite Nat.ltb_irrefl.
      + rewrite E'. exists data'. split; auto. split; [congruence|]. intros s Hs.
        destruct (Nat.eq_dec s k) as [->|Hne].
        * rewrite (proj2 (Nat.ltb_lt _ _)) by lia. auto.
        * rewrite Ho, Hr by auto. destruct (Nat.ltb_spec s k), (Nat.ltb_spec s (S k)); auto; lia. }
  destruct (Hk m (le_n _)) as (data & E & Hl & Hr). rewrite E. eexists. split; [reflexivity|].
  repeat split; cbn [bsprim bsnum bsdat bsdiffs]; auto.
  - now rewrite map_length.
  - rewrite Hr by auto. now rewrite (proj2 (Nat.ltb_lt _ _)) by auto.
  - destruct (H9 s H) as (_ & us & Eus & _). rewrite nth_error_map, Eus. exists []. auto.
Qed.

Lemma bs_run_spec n m os : forall c w d st, BInv n m c w d -> bspec_run n m (c, w) os = Some st ->
  exists d', bs_run d os = Some d' /\ BInv n m (fst st) (snd st) d'.
Proof.
  induction os as [|o os IH]; intros c w d st HI H; unfold bspec_run, bs_run in *; cbn [ofold] in *.
  - injection H as <-. eauto.
  - destruct (bspec_op n m (c, w) o) as [[c1 w1]|] eqn:E; [|discriminate].
    assert (Hs : exists d1, bs_step d o = Some d1 /\ BInv n m c1 w1 d1).
    { destruct o as [f t e| |]; cbn [bs_step].
      - destruct (bs_swap_spec _ _ _ _ _ _ _ _ _ HI E) as (d1 & ? & ?). eauto.
      - cbn in E. assert (c1 = w /\ w1 = w) as [-> ->] by (split; congruence).
        eexists. split; [reflexivity|]. eapply bs_commit_spec; eauto.
      - cbn in E. assert (c1 = c /\ w1 = c) as [-> ->] by (split; congruence).
        eapply bs_revert_spec; eauto. }
    destruct Hs as (d1 & -> & HI1). eapply IH; eauto.
Qed.

Lemma concat_length_const {A} n (ls : list (list A)) : Forall (fun r => length r = n) ls ->
  length (concat ls) = length ls * n.
Proof. induction 1; cbn; auto. rewrite app_length. lia. Qed.
Lemma row_concat n ls : Forall (fun r => length r = n) ls -> forall s r,
  nth_error ls s = Some r -> row n s (concat ls) = r.
Proof.
  induction 1 as [|a ls Ha H IH]; intros [|s] r Hs; cbn in Hs; try discriminate.
  - injection Hs as ->. unfold row. cbn. now apply firstn_exact.
  - unfold row. cbn [concat Nat.mul]. rewrite skipn_app.
    rewrite skipn_all2 by lia. cbn [app]. replace (n + s * n - length a) with (s * n) by lia.
    now apply IH.
Qed.

Lemma BInv_new n m w : length w = n -> Forall (fun s => s < m) w ->
  forall data, length data = m * n -> (forall s, s < m -> row n s data = indicator w s) ->
  BInv n m w w (BSData n m data (repeat [] m)).
Proof.
  intros Hl Hw data Hd Hr. repeat split; cbn [bsprim bsnum bsdat bsdiffs]; auto.
  - apply repeat_length.
  - rewrite nth_error_repeat, (proj2 (Nat.ltb_lt _ _)) by auto. exists []. auto.
Qed.

Lemma bs_init_default_spec n m : 0 < m ->
  exists d, bs_init_default n m = Some d /\ BInv n m (repeat 0 n) (repeat 0 n) d.
Proof.
  intros Hm. unfold bs_init_default.
  assert (Hk : forall k, k <= n -> exists l,
    ofold (fun l i => if i <? length l then Some (lset i (zq 1) l) else None) (repeat (zq 0) (n * m)) (seq 0 k)
      = Some l /\ length l = n * m /\
    forall i, i < n * m -> nth_error l i = Some (zq (if i <? k then 1 else 0))).
  { induction k as [|k IH]; intros Hkn.
    - eexists. split; [reflexivity|]. split; [apply repeat_length|]. intros i Hi.
      now rewrite nth_error_repeat, (proj2 (Nat.ltb_lt _ _)) by auto.
    - destruct IH as (l & E & Hl & Hn); [lia|]. rewrite seq_S, ofold_app, E. cbn [ofold Nat.add].
      rewrite (proj2 (Nat.ltb_lt _ _)) by nia. eexists. split; [reflexivity|].
      split; [now rewrite lset_length|]. intros i Hi. rewrite nth_error_lset.
      destruct (Nat.eqb_spec k i) as [->|Hne]; cbn [andb].
      + rewrite !(proj2 (Nat.ltb_lt _ _)) by lia. reflexivity.
      + rewrite Hn by auto. destruct (Nat.ltb_spec i k), (Nat.ltb_spec i (S k)); auto; lia. }
  destruct (Hk n (le_n _)) as (l & E & Hl & Hn). rewrite E. eexists. split; [reflexivity|].
  apply BInv_new.
  - apply repeat_length.
  - apply Forall_forall. intros x Hx. apply repeat_spec in Hx. lia.
  - lia.
  - intros s Hs. apply nth_error_ext. intros e.
    rewrite nth_error_row, indicator_nth, nth_error_repeat. destruct (Nat.ltb_spec e n) as [He|]; auto.
    rewrite Hn by nia. unfold ind. f_equal. f_equal.
    destruct s; cbn [Nat.mul Nat.add Nat.eqb].
    + now rewrite (proj2 (Nat.ltb_lt _ _)) by auto.
    + destruct (Nat.ltb_spec (n + s * n + e) n); auto. nia.
Qed.

(** A partition given as indicator rows. *)
Definition is_partition (n m : nat) (contents : list (list num)) : Prop :=
  exists w, length w = n /\ Forall (fun s => s < m) w /\ contents = map (indicator w) (seq 0 m).

Lemma sum_fold l : forall a, fold_left Qcplus l a = (a + fold_left Qcplus l (zq 0))%Qc.
Proof.
  induction l as [|x l IH]; intros a; cbn.
  - rewrite zq_0. now rewrite Qcplus_0_r.
  - rewrite IH, (IH (zq 0 + x)%Qc). rewrite zq_0. rewrite Qcplus_0_l. now rewrite Qcplus_assoc.
Qed.
Definition qsum l := fold_left Qcplus l (zq 0).
Lemma qsum_cons x l : qsum (x :: l) = (x + qsum l)%Qc.
Proof. unfold qsum. cbn. rewrite sum_fold, (zq_0). now rewrite Qcplus_0_l. Qed.
Lemma qsum_app l r : qsum (l ++ r) = (qsum l + qsum r)%Qc.
Proof.
  induction l as [|x l IH]; cbn [app].
  - unfold qsum at 2. cbn. rewrite zq_0. now rewrite Qcplus_0_l.
  - rewrite !qsum_cons, IH. now rewrite Qcplus_assoc.
Qed.

Lemma qsum_indicator_col x m : x < m -> qsum (map (fun s => ind x s) (seq 0 m)) = zq 1.
Proof.
  intros Hx.
  assert (H : forall k, qsum (map (fun s => ind x s) (seq 0 k)) = zq (if x <? k then 1 else 0)).
  { induction k as [|k IH]; [reflexivity|]. rewrite seq_S, map_app, qsum_app, IH. cbn [map].
    rewrite qsum_cons. unfold qsum at 1, ind. cbn [fold_left Nat.add]. rewrite !zq_plus. f_equal.
    destruct (Nat.ltb_spec x k), (Nat.ltb_spec x (S k)), (Nat.eqb_spec x k); lia. }
  rewrite H. now rewrite (proj2 (Nat.ltb_lt _ _)) by auto.
Qed.

Lemma qsum_cat_cons (f : nat -> num) (g : nat -> list num) ks :
  qsum (concat (map (fun k => f k :: g k) ks)) = (qsum (map f ks) + qsum (concat (map g ks)))%Qc.
Proof.
  induction ks as [|k ks IH]; cbn [map concat app].
  - unfold qsum. cbn. rewrite zq_0. now rewrite Qcplus_0_l.
  - rewrite !qsum_cons, !qsum_app, IH. ring.
Qed.

Lemma qsum_partition w m : Forall (fun s => s < m) w ->
  qsum (concat (map (indicator w) (seq 0 m))) = nq (length w).
Proof.
  induction 1 as [|x w Hx H IH].
  - replace (concat (map (indicator []) (seq 0 m))) with (@nil num); [reflexivity|].
    induction (seq 0 m); cbn; auto.
  - unfold indicator in *. cbn [map]. rewrite (qsum_cat_cons (fun s => ind x s) (fun s => map (fun w => ind w s) w)).
    rewrite IH, qsum_indicator_col by auto. unfold nq. cbn [length]. rewrite zq_plus. f_equal. lia.
Qed.

Lemma ind_binary x s : bs_binary (ind x s) = true.
Proof. unfold ind. destruct (x =? s); reflexivity. Qed.

Lemma bs_init_ok n m contents : is_partition n m contents ->
  exists d w, bs_init n m contents = Ok d /\ BInv n m w w d /\ contents = map (bs_view d) (seq 0 m)
    /\ contents = map (indicator w) (seq 0 m).
Proof.
  intros (w & Hl & Hw & ->). unfold bs_init. rewrite map_length, seq_length, Nat.eqb_refl. cbn [negb].
  assert (Hf : forallb (fun r => (length r =? n) && forallb bs_binary r) (map (indicator w) (seq 0 m)) = true).
  { apply forallb_forall. intros r Hr. apply in_map_iff in Hr. destruct Hr as (s & <- & _).
    rewrite indicator_length, Hl, Nat.eqb_refl. cbn [andb]. apply forallb_forall. intros y Hy.
    apply in_map_iff in Hy. destruct Hy as (z & <- & _). apply ind_binary. }
  rewrite Hf. cbn [negb]. fold (qsum (concat (map (indicator w) (seq 0 m)))).
  rewrite qsum_partition, Hl, qeqb_refl by auto. cbn [negb].
  assert (Hc : Forall (fun r : list num => length r = n) (map (indicator w) (seq 0 m))).
  { apply Forall_map, Forall_forall. intros s _. now rewrite indicator_length. }
  assert (Hrow : forall s, s < m -> row n s (concat (map (indicator w) (seq 0 m))) = indicator w s).
  { intros s Hs. apply row_concat; auto. rewrite nth_error_map, nth_error_seq.
    now rewrite (proj2 (Nat.ltb_lt _ _)) by auto. }
  eexists. exists w. split; [reflexivity|]. split; [|split; [|reflexivity]].
  - apply BInv_new; auto. rewrite (concat_length_const n) by auto. now rewrite map_length, seq_length.
  - apply map_ext_in. intros s Hs. apply in_seq in Hs. unfold bs_view. cbn [bsprim bsdat].
    symmetry. apply Hrow. lia.
Qed.

Lemma bs_containing_spec n m c w d e x : BInv n m c w d -> nth_error w e = Some x ->
  bs_containing d e = Some x.
Proof.
  intros HI Ex. pose proof HI as (H1 & H2 & H3 & H4 & H5 & H6 & H7 & H8 & H9).
  assert (Hx : x < m) by (rewrite Forall_forall in H8; apply H8; eapply nth_error_In; eauto).
  unfold bs_containing. rewrite H1, H2.
  assert (H : forall k s0, s0 + k = m -> s0 <= x -> bs_find n (bsdat d) e (seq s0 k) = Some x).
  { induction k as [|k IH]; intros s0 Hk Hs; [lia|]. cbn [seq bs_find].
    rewrite (BInv_nth n m c w d s0 e x) by (auto; lia).
    unfold ind. destruct (Nat.eqb_spec x s0) as [->|Hne].
    - destruct (qeqb_spec (zq 1) (zq 0)) as [E|]; auto. apply zq_inj in E. discriminate.
    - rewrite qeqb_refl. apply IH; lia. }
  apply H; lia.
Qed.
