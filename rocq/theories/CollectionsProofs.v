From Verif Require Import Base Num StateDataModel StateDataSpec StateDataProofs Replay
  CollectionsModel CollectionsSpec.

(** *** lists *)
Section Lists.
Context {V : Type}.

Lemma firstn_lset_lt k i x (l : list V) : firstn k (lset i x l) = lset i x (firstn k l).
Proof.
  apply nth_error_ext. intros j. rewrite nth_error_firstn, !nth_error_lset, nth_error_firstn, firstn_length.
  destruct (Nat.ltb_spec j k); destruct (Nat.eqb_spec i j); cbn; auto.
  - subst. destruct (Nat.ltb_spec j (length l)), (Nat.ltb_spec j (Nat.min k (length l))); auto; lia.
  - subst. destruct (Nat.ltb_spec j (Nat.min k (length l))); auto. lia.
Qed.

Lemma firstn_lset_ge k i x (l : list V) : k <= i -> firstn k (lset i x l) = firstn k l.
Proof. intros H. rewrite firstn_lset_lt. apply lset_out. rewrite firstn_length. lia. Qed.

Fixpoint shiftr (p : V) (w : list V) : list V :=
  match w with [] => [] | h :: t => p :: shiftr h t end.

Lemma shiftr_snoc p m x : shiftr p (m ++ [x]) = p :: m.
Proof.
  revert p. induction m as [|h t IH]; intros p; cbn; auto. now rewrite IH.
Qed.

Lemma rot_loop_up (w : list V) : forall A p B us,
  exists us', rot_loop (seq (length A) (length w)) p (A ++ w ++ B) us = Some (A ++ shiftr p w ++ B, us').
Proof.
  induction w as [|h t IH]; intros A p B us; cbn.
  - eauto.
  - rewrite nth_error_app2, Nat.sub_diag by lia. cbn.
    rewrite lset_mid.
    replace (S (length A)) with (length (A ++ [p])) by (rewrite app_length; cbn; lia).
    replace (A ++ p :: t ++ B) with ((A ++ [p]) ++ t ++ B) by (rewrite <- app_assoc; auto).
    destruct (IH (A ++ [p]) h B (us ++ [change (length A) h p])) as [us' E].
    rewrite E. rewrite <- app_assoc. cbn. eauto.
Qed.

Lemma rot_loop_down (w : list V) : forall A p B us,
  exists us', rot_loop (rev (seq (length A) (length w))) p (A ++ w ++ B) us
              = Some (A ++ tl (w ++ [p]) ++ B, us').
Proof.
  induction w as [|h t IH] using rev_ind; intros A p B us; cbn.
  - eauto.
  - rewrite app_length. cbn. rewrite Nat.add_1_r, seq_S, rev_app_distr. cbn.
    replace (A ++ (t ++ [h]) ++ B) with ((A ++ t) ++ h :: B)
      by (rewrite <- !app_assoc; reflexivity).
    replace (length A + length t) with (length (A ++ t)) by apply app_length.
    rewrite nth_error_app2, Nat.sub_diag by lia. cbn. rewrite lset_mid.
    rewrite <- app_assoc.
    destruct (IH A h (p :: B) (us ++ [change (length (A ++ t)) h p])) as [us' E]. rewrite E.
    exists us'. f_equal. f_equal. f_equal.
    replace (tl ((t ++ [h]) ++ [p])) with (tl (t ++ [h]) ++ [p]).
    + rewrite <- app_assoc. reflexivity.
    + destruct t; reflexivity.
Qed.

Lemma list_split3 (l : list V) i j : i < j -> j < length l ->
  exists A m x B, l = A ++ m ++ x :: B /\ length A = i /\ length m = j - i.
Proof.
  intros H1 H2.
  destruct (nth_error l j) as [x|] eqn:E; [|apply nth_error_None in E; lia].
  apply nth_error_split in E. destruct E as (l1 & l2 & -> & Hl).
  exists (firstn i l1), (skipn i l1), x, l2. rewrite app_assoc, firstn_skipn.
  rewrite firstn_length, skipn_length. repeat split; lia.
Qed.

Lemma firstn_exact i (A B : list V) : length A = i -> firstn i (A ++ B) = A.
Proof. intros <-. rewrite firstn_app, Nat.sub_diag, firstn_all. cbn. apply app_nil_r. Qed.

Lemma skipn_exact i (A B : list V) : length A = i -> skipn i (A ++ B) = B.
Proof. intros <-. rewrite skipn_app, Nat.sub_diag, skipn_all. reflexivity. Qed.

Lemma skipn_exact_S i (A : list V) x B : length A = i -> skipn (S i) (A ++ x :: B) = B.
Proof.
  intros H. change (x :: B) with ([x] ++ B). rewrite app_assoc.
  apply skipn_exact. rewrite app_length. cbn. lia.
Qed.

Lemma delete_at_exact i (A : list V) x B : length A = i -> delete_at i (A ++ x :: B) = A ++ B.
Proof. intros H. unfold delete_at. now rewrite firstn_exact, skipn_exact_S. Qed.

Lemma insert_at_exact i x (A B : list V) : length A = i -> insert_at i x (A ++ B) = A ++ x :: B.
Proof. intros H. unfold insert_at. now rewrite firstn_exact, skipn_exact. Qed.

Lemma rotate_loop_spec (l : list V) dest src x :
  dest < length l -> src < length l -> dest <> src -> nth_error l src = Some x ->
  exists us, rot_loop (rot_indices dest src) x l [] = Some (move_elem dest src l, us).
Proof.
  intros Hd Hs Hne Hx. unfold rot_indices, move_elem. rewrite Hx.
  destruct (Nat.ltb_spec dest src) as [Hlt|Hge].
  - destruct (list_split3 l dest src Hlt Hs) as (A & m & y & B & -> & HA & Hm).
    assert (y = x).
    { rewrite app_assoc, nth_error_app2 in Hx by (rewrite app_length; lia).
      rewrite app_length in Hx. replace (src - (length A + length m)) with 0 in Hx by lia.
      cbn in Hx. congruence. } subst y.
    destruct (rot_loop_up (m ++ [x]) A x B []) as [us E].
    exists us. replace (seq dest (S (src - dest))) with (seq (length A) (length (m ++ [x])))
      by (rewrite app_length; cbn [length]; f_equal; lia).
    replace (A ++ m ++ x :: B) with (A ++ (m ++ [x]) ++ B) by (rewrite <- app_assoc; auto).
    rewrite E, shiftr_snoc. f_equal. f_equal.
    replace (A ++ (m ++ [x]) ++ B) with ((A ++ m) ++ x :: B) by (rewrite <- !app_assoc; auto).
    rewrite delete_at_exact by (rewrite app_length; lia). rewrite <- app_assoc.
    rewrite insert_at_exact by auto. reflexivity.
  - rewrite (proj2 (Nat.ltb_lt src dest)) by lia.
    assert (Hlt : src < dest) by lia.
    destruct (nth_error_split l src Hx) as (A & R & -> & HA).
    rewrite app_length in Hd. cbn in Hd.
    pose (m := firstn (dest - src) R). pose (B := skipn (dest - src) R).
    assert (HR : R = m ++ B) by (symmetry; apply firstn_skipn).
    assert (Hm : length m = dest - src) by (unfold m; rewrite firstn_length; lia).
    destruct (rot_loop_down (x :: m) A x B []) as [us E].
    exists us. replace (rev (seq src (S (dest - src)))) with (rev (seq (length A) (length (x :: m))))
      by (cbn [length]; repeat f_equal; lia).
    replace (A ++ x :: R) with (A ++ (x :: m) ++ B) by (rewrite HR; auto).
    rewrite E. cbn [tl app]. f_equal. f_equal.
    rewrite delete_at_exact by auto. replace (A ++ m ++ B) with ((A ++ m) ++ B) by (symmetry; apply app_assoc).
    rewrite insert_at_exact by (rewrite app_length; lia). rewrite <- !app_assoc. reflexivity.
Qed.

Lemma delete_at_perm i (l : list V) x : nth_error l i = Some x -> Permutation l (x :: delete_at i l).
Proof.
  intros H. destruct (nth_error_split l i H) as (A & B & -> & HA). rewrite delete_at_exact by auto.
  symmetry. apply Permutation_middle.
Qed.

Lemma insert_at_perm i x (l : list V) : Permutation (x :: l) (insert_at i x l).
Proof.
  unfold insert_at. rewrite <- (firstn_skipn i l) at 1. apply Permutation_middle.
Qed.

Lemma move_elem_perm dest src (l : list V) : Permutation l (move_elem dest src l).
Proof.
  unfold move_elem. destruct (nth_error l src) as [x|] eqn:E; [|reflexivity].
  etransitivity; [apply delete_at_perm; eauto|]. apply insert_at_perm.
Qed.

Lemma swap_elems_perm i j (l : list V) : Permutation l (swap_elems i j l).
Proof.
  unfold swap_elems. destruct (nth_error l i) as [x|] eqn:Ei; [|reflexivity].
  destruct (nth_error l j) as [y|] eqn:Ej; [|reflexivity].
  assert (Hwlog : forall i j x y, i < j -> nth_error l i = Some x -> nth_error l j = Some y ->
    Permutation l (lset i y (lset j x l))).
  { clear i j x y Ei Ej. intros i j x y Hij Hi Hj.
    destruct (list_split3 l i j Hij) as (A & m & z & B & -> & HA & Hm).
    { eapply nth_error_lt; eauto. }
    destruct m as [|w m]; [cbn in Hm; lia|].
    rewrite nth_error_app2 in Hi by lia. replace (i - length A) with 0 in Hi by lia.
    cbn in Hi. injection Hi as ->.
    assert (z = y).
    { rewrite app_assoc, nth_error_app2 in Hj by (rewrite app_length; lia).
      rewrite app_length in Hj. replace (j - (length A + length (x :: m))) with 0 in Hj by lia.
      cbn in Hj. congruence. } subst z.
    assert (E : lset i y (lset j x (A ++ (x :: m) ++ y :: B)) = A ++ (y :: m) ++ x :: B).
    { rewrite (app_assoc A). replace j with (length (A ++ x :: m)) by (rewrite app_length; lia).
      rewrite lset_mid, <- app_assoc. replace i with (length A). cbn [app]. now rewrite lset_mid. }
    rewrite E. apply Permutation_app_head. cbn [app].
    etransitivity; [apply perm_skip; symmetry; apply Permutation_middle|].
    etransitivity; [apply perm_swap|]. apply perm_skip. apply Permutation_middle. }
  destruct (lt_eq_lt_dec i j) as [[Hlt|He]|Hgt].
  - eauto.
  - subst. rewrite lset_lset. rewrite lset_same; [reflexivity|congruence].
  - rewrite lset_comm by lia. eauto.
Qed.

Lemma rot_indices_lt dest src k : dest < k -> src < k ->
  Forall (fun i => i < k) (rot_indices dest src).
Proof.
  intros Hd Hs. apply Forall_forall. intros i. unfold rot_indices.
  destruct (Nat.ltb_spec dest src); [rewrite in_seq; lia|].
  destruct (Nat.ltb_spec src dest); [|cbn; tauto].
  rewrite <- in_rev, in_seq. lia.
Qed.

Lemma firstn_S_snoc k (l : list V) x : nth_error l k = Some x -> firstn (S k) l = firstn k l ++ [x].
Proof.
  intros H. destruct (nth_error_split _ _ H) as (A & B & -> & HA).
  rewrite (firstn_exact k) by auto.
  replace (A ++ x :: B) with ((A ++ [x]) ++ B) by (rewrite <- app_assoc; reflexivity).
  apply firstn_exact. rewrite app_length. cbn. lia.
Qed.
End Lists.

Section Generic.
Context {V : Type}.
Variable veqb : V -> V -> bool.
Hypothesis veqb_spec : forall x y, reflect (x = y) (veqb x y).

Definition is_change (u : update V) : Prop := exists o v, uold u = Some o /\ uval u = Some v.

Lemma replay1_is_change l u l1 : is_change u -> replay1 veqb l u = Some l1 ->
  exists o v, uold u = Some o /\ uval u = Some v /\ nth_error l (uidx u) = Some o /\
    l1 = lset (uidx u) v l.
Proof.
  intros (o & v & Ho & Hv). unfold replay1. rewrite Ho, Hv.
  destruct (nth_error l (uidx u)) as [x|] eqn:E; [|discriminate].
  destruct (veqb_spec x o) as [->|]; [|discriminate]. intros H. injection H as <-. eauto 7.
Qed.

Lemma replay_changes_length us : forall l l', Forall is_change us -> replay veqb l us = Some l' ->
  length l' = length l.
Proof.
  induction us as [|u us IH]; intros l l' Hc H.
  - unfold replay in H. cbn in H. congruence.
  - inversion_clear Hc as [|? ? Hu Hus]. unfold replay in H. cbn [ofold] in H.
    destruct (replay1 veqb l u) as [l1|] eqn:E; [|discriminate].
    destruct (replay1_is_change _ _ _ Hu E) as (o & v & _ & _ & _ & ->).
    apply IH in H; auto. now rewrite lset_length in H.
Qed.

Lemma replay_firstn k us : forall l l',
  Forall is_change us -> Forall (fun u => uidx u < k) us ->
  replay veqb l us = Some l' -> replay veqb (firstn k l) us = Some (firstn k l').
Proof.
  induction us as [|u us IH]; intros l l' Hc Hk H.
  - unfold replay in *. cbn in *. congruence.
  - inversion_clear Hc as [|? ? Hu Hus]. inversion_clear Hk as [|? ? Hk1 Hk2].
    unfold replay in H. cbn [ofold] in H.
    destruct (replay1 veqb l u) as [l1|] eqn:E; [|discriminate].
    destruct (replay1_is_change _ _ _ Hu E) as (o & v & Ho & Hv & Hn & ->).
    destruct u as [i uo uv]; cbn in *. subst.
    assert (Hn' : nth_error (firstn k l) i = Some o).
    { rewrite nth_error_firstn. rewrite (proj2 (Nat.ltb_lt _ _)) by lia. auto. }
    rewrite (rp_cons _ _ _ _ (rp_change veqb_spec _ _ _ v Hn')).
    rewrite <- firstn_lset_lt. apply IH; auto.
Qed.

Lemma undo_changes us : forall l l',
  Forall is_change us -> replay veqb l us = Some l' ->
  fold_right c_undo1 (Some l') us = Some l.
Proof.
  induction us as [|u us IH]; intros l l' Hc H.
  - unfold replay in H. cbn in *. congruence.
  - inversion_clear Hc as [|? ? Hu Hus]. unfold replay in H. cbn [ofold] in H.
    destruct (replay1 veqb l u) as [l1|] eqn:E; [|discriminate].
    destruct (replay1_is_change _ _ _ Hu E) as (o & v & Ho & Hv & Hn & ->).
    cbn [fold_right]. rewrite (IH _ _ Hus H). unfold c_undo1. rewrite Ho.
    f_equal. rewrite lset_lset. now apply lset_same.
Qed.

(** *** rotate *)

Lemma rot_loop_replay idxs : forall p el us el' us',
  rot_loop idxs p el us = Some (el', us') ->
  exists us2, us' = us ++ us2 /\ replay veqb el us2 = Some el' /\ Forall is_change us2 /\
    map (@uidx V) us2 = idxs.
Proof.
  induction idxs as [|i idxs IH]; intros p el us el' us' H; cbn in H.
  - injection H as <- <-. exists []. rewrite app_nil_r. repeat split; auto.
  - destruct (nth_error el i) as [x|] eqn:E; [|discriminate].
    destruct (IH _ _ _ _ _ H) as (us2 & -> & Hr & Hc & Hi).
    exists (change i x p :: us2). rewrite <- app_assoc. cbn. repeat split.
    + rewrite (rp_cons _ _ _ _ (rp_change veqb_spec _ _ _ p E)). exact Hr.
    + constructor; auto. exists x, p. auto.
    + congruence.
Qed.

(** *** the invariant *)
Definition CInv (c : list V) (k0 : nat) (d : cdata V) : Prop :=
  cpsize d = k0 /\ k0 <= length c /\ csize d <= length (cel d) /\
  Forall is_change (call d) /\
  replay veqb c (call d) = Some (cel d) /\
  replay veqb (firstn k0 c) (cprev d) = Some (c_view d).

Lemma CInv_init l k : k <= length l -> CInv l k (c_new l k).
Proof. intros H. repeat split; cbn; auto. Qed.

Lemma change_is_change i x y : is_change (change i x y).
Proof. exists x, y. auto. Qed.

Lemma CInv_exchange c k0 d i j :
  CInv c k0 d -> i < length (cel d) -> j < length (cel d) ->
  exists d', c_exchange d i j = Some d' /\ CInv c k0 d' /\
    cel d' = swap_elems i j (cel d) /\ csize d' = csize d.
Proof.
  intros (H1 & H2 & H3 & H4 & H5 & H6) Hi Hj. unfold c_exchange, swap_elems.
  destruct (nth_error_get _ Hi) as [x Ex], (nth_error_get _ Hj) as [y Ey]. rewrite Ex, Ey.
  destruct (Nat.eqb_spec i j) as [<-|Hne].
  - exists d. repeat split; auto. rewrite lset_lset. symmetry. apply lset_same. congruence.
  - eexists. split; [reflexivity|]. cbn [cel csize]. split; [|split; [|reflexivity]];
      [|apply lset_comm; auto].
    assert (Ey' : nth_error (lset i y (cel d)) j = Some y)
      by (rewrite nth_error_lset_neq by auto; auto).
    repeat split; cbn [cpsize csize cel call cprev]; auto.
    + now rewrite !lset_length.
    + apply Forall_app. split; auto. repeat constructor; apply change_is_change.
    + rewrite (rp_app _ _ _ _ H5), (rp_cons _ _ _ _ (rp_change veqb_spec _ _ _ y Ex)).
      apply rp_one. now apply rp_change.
    + rewrite (rp_app _ _ _ _ H6). unfold c_view. cbn [csize cel].
      assert (Fx : forall k, i < k -> nth_error (firstn k (cel d)) i = Some x).
      { intros k Hk. rewrite nth_error_firstn, (proj2 (Nat.ltb_lt _ _)) by auto. auto. }
      assert (Fy : forall k, j < k -> nth_error (firstn k (cel d)) j = Some y).
      { intros k Hk. rewrite nth_error_firstn, (proj2 (Nat.ltb_lt _ _)) by auto. auto. }
      destruct (Nat.ltb_spec i (csize d)), (Nat.ltb_spec j (csize d)); cbn [andb].
      * rewrite (rp_cons _ _ _ _ (rp_change veqb_spec _ _ _ y (Fx _ H))).
        rewrite !firstn_lset_lt. apply rp_one. apply rp_change; auto.
        rewrite nth_error_lset_neq by auto. auto.
      * rewrite firstn_lset_ge by auto. rewrite firstn_lset_lt.
        apply rp_one. apply rp_change; auto.
      * rewrite firstn_lset_lt, firstn_lset_ge by auto.
        apply rp_one. apply rp_change; auto.
      * rewrite !firstn_lset_ge by auto. reflexivity.
Qed.

Lemma CInv_rotate c k0 d dest src :
  CInv c k0 d -> dest < csize d -> src < csize d ->
  exists d', c_rotate d dest src = Some d' /\ CInv c k0 d' /\
    cel d' = move_elem dest src (cel d) /\ csize d' = csize d.
Proof.
  intros HI Hd Hs. destruct (HI) as (H1 & H2 & H3 & H4 & H5 & H6). unfold c_rotate.
  assert (Hs' : src < length (cel d)) by lia.
  destruct (nth_error_get _ Hs') as [x Ex].
  destruct (Nat.eqb_spec src dest) as [<-|Hne].
  - exists d. repeat split; auto. unfold move_elem. rewrite Ex.
    destruct (nth_error_split _ _ Ex) as (A & B & E & HA). rewrite E. rewrite delete_at_exact by auto.
    rewrite insert_at_exact by auto. reflexivity.
  - rewrite (proj2 (Nat.ltb_lt _ _)), (proj2 (Nat.ltb_lt _ _)) by auto. cbn [andb negb]. rewrite Ex.
    destruct (rotate_loop_spec (cel d) dest src x) as [us E]; auto; try lia.
    rewrite E. destruct (rot_loop_replay _ _ _ _ _ _ E) as (us2 & Hus & Hr & Hc & Hi).
    cbn in Hus. subst us2. eexists. split; [reflexivity|]. cbn [cel csize]. split; [|auto].
    assert (Hlen : length (move_elem dest src (cel d)) = length (cel d)).
    { eapply replay_changes_length; eauto. }
    repeat split; cbn [cpsize csize cel call cprev]; auto.
    + congruence.
    + apply Forall_app. auto.
    + now rewrite (rp_app _ _ _ _ H5).
    + rewrite (rp_app _ _ _ _ H6). unfold c_view. cbn [csize cel].
      apply replay_firstn; auto.
      assert (Hlt := rot_indices_lt dest src (csize d) Hd Hs). rewrite <- Hi in Hlt.
      rewrite Forall_map in Hlt. exact Hlt.
Qed.

Lemma CInv_grow c k0 d :
  CInv c k0 d -> csize d < length (cel d) ->
  exists d', c_grow d = Some d' /\ CInv c k0 d' /\ cel d' = cel d /\ csize d' = S (csize d).
Proof.
  intros (H1 & H2 & H3 & H4 & H5 & H6) Hlt. unfold c_grow.
  destruct (nth_error_get _ Hlt) as [x Ex]. rewrite Ex.
  eexists. split; [reflexivity|]. cbn [cel csize]. split; [|auto].
  repeat split; cbn [cpsize csize cel call cprev]; auto.
  rewrite (rp_app _ _ _ _ H6). unfold c_view. cbn [csize cel].
  rewrite (firstn_S_snoc _ _ _ Ex). apply rp_one, rp_place. rewrite firstn_length. lia.
Qed.

Lemma CInv_shrink c k0 d :
  CInv c k0 d -> 0 < csize d ->
  exists d', c_shrink d = Some d' /\ CInv c k0 d' /\ cel d' = cel d /\ csize d' = csize d - 1.
Proof.
  intros (H1 & H2 & H3 & H4 & H5 & H6) Hlt. unfold c_shrink.
  destruct (csize d) as [|k] eqn:Ek; [lia|].
  assert (Hk : k < length (cel d)) by lia.
  destruct (nth_error_get _ Hk) as [x Ex]. rewrite Ex.
  eexists. split; [reflexivity|]. cbn [cel csize]. split; [|split; auto; lia].
  repeat split; cbn [cpsize csize cel call cprev]; auto; try lia.
  rewrite (rp_app _ _ _ _ H6). unfold c_view. cbn [csize cel]. rewrite Ek.
  rewrite (firstn_S_snoc _ _ _ Ex). apply rp_one, rp_remove; auto. rewrite firstn_length. lia.
Qed.

Lemma CInv_revert c k0 d :
  CInv c k0 d -> c_revert d = Some (c_new c k0).
Proof.
  intros (H1 & H2 & H3 & H4 & H5 & H6). unfold c_revert.
  rewrite (undo_changes _ _ _ H4 H5). unfold c_new. congruence.
Qed.

End Generic.

(** *** refinement of every operation *)
Notation CInvQ := (CInv qeqb).

Lemma c_step_spec n c k0 d o s' :
  CInvQ c k0 d -> k0 <= cmax n -> cmax n <= length c ->
  cmin n <= csize d <= cmax n ->
  cspec_op (cmin n) (cmax n) ((c, k0), (cel d, csize d)) o = Some s' ->
  exists d', c_step n d o = Some d' /\ CInvQ (fst (fst s')) (snd (fst s')) d' /\
    snd s' = (cel d', csize d').
Proof.
  intros HI Hk0 Hmax Hsz Hs.
  assert (Hlen : length (cel d) = length c).
  { destruct HI as (_ & _ & _ & Hc & Hr & _). eapply replay_changes_length; eauto using qeqb_spec. }
  destruct o as [i j|dest src| | | |]; cbn in Hs |- *.
  - destruct (Nat.ltb_spec i (length (cel d))), (Nat.ltb_spec j (length (cel d))); try discriminate.
    injection Hs as <-. destruct (CInv_exchange _ qeqb_spec c k0 d i j) as (d' & -> & HI' & He & Hz); auto.
    exists d'. cbn. repeat split; auto; try apply HI'. congruence.
  - destruct (Nat.ltb_spec dest (csize d)), (Nat.ltb_spec src (csize d)); try discriminate.
    injection Hs as <-. destruct (CInv_rotate _ qeqb_spec c k0 d dest src) as (d' & -> & HI' & He & Hz); auto.
    exists d'. cbn. repeat split; auto; try apply HI'. congruence.
  - destruct (Nat.ltb_spec (csize d) (cmax n)) as [Hlt|]; [|discriminate].
    injection Hs as <-. unfold cn_grow, c_dynamic.
    replace (negb (cmin n =? cmax n)) with true by lia.
    rewrite (proj2 (Nat.ltb_lt _ _)) by auto. cbn [andb].
    destruct (CInv_grow _ qeqb_spec c k0 d) as (d' & -> & HI' & He & Hz); auto; [lia|].
    exists d'. cbn. repeat split; auto; try apply HI'. congruence.
  - destruct (Nat.ltb_spec (cmin n) (csize d)) as [Hlt|]; [|discriminate].
    injection Hs as <-. unfold cn_shrink, c_dynamic.
    replace (negb (cmin n =? cmax n)) with true by lia.
    rewrite (proj2 (Nat.ltb_lt _ _)) by auto. cbn [andb].
    destruct (CInv_shrink _ qeqb_spec c k0 d) as (d' & -> & HI' & He & Hz); auto; [lia|].
    exists d'. cbn. repeat split; auto; try apply HI'. congruence.
  - injection Hs as <-. exists (c_commit d). cbn [fst snd]. split; [reflexivity|]. split; [|reflexivity].
    apply (CInv_init qeqb (cel d) (csize d)). apply HI.
  - injection Hs as <-. rewrite (CInv_revert _ qeqb_spec c k0 d HI). eexists. split; [reflexivity|].
    cbn. split; [|reflexivity]. apply CInv_init. apply HI.
Qed.

Definition CInvariant n (s : @cstate num) : Prop :=
  let '((c, k0), (l, k)) := s in
  Permutation c l /\ NoDup c /\
  (forall x, In x c -> exists z, x = zq z /\ (0 <= z < Z.of_nat (cmaxval n))%Z) /\
  cmin n <= k0 <= cmax n /\ cmin n <= k <= cmax n /\ cmax n <= length c.

Lemma cspec_op_inv n s o s' : CInvariant n s ->
  cspec_op (cmin n) (cmax n) s o = Some s' -> CInvariant n s'.
Proof.
  destruct s as [[c k0] [l k]]. intros (H1 & H2 & H3 & H4 & H5 & H6) H.
  destruct o as [i j|dest src| | | |]; cbn in H.
  - destruct (_ && _); [|discriminate]. injection H as <-. repeat split; auto; try lia.
    etransitivity; [exact H1|apply swap_elems_perm].
  - destruct (_ && _); [|discriminate]. injection H as <-. repeat split; auto; try lia.
    etransitivity; [exact H1|apply move_elem_perm].
  - destruct (Nat.ltb_spec k (cmax n)); [|discriminate]. injection H as <-.
    repeat split; auto; try lia.
  - destruct (Nat.ltb_spec (cmin n) k); [|discriminate]. injection H as <-.
    repeat split; auto; try lia.
  - injection H as <-. repeat split; auto; try lia.
    + eapply Permutation_NoDup; eauto.
    + intros x Hx. apply H3. eapply Permutation_in; [symmetry; eauto|]. auto.
    + apply Permutation_length in H1. lia.
  - injection H as <-. repeat split; auto; try lia.
Qed.

Lemma c_run_spec n os : forall s d s',
  CInvariant n s -> CInvQ (fst (fst s)) (snd (fst s)) d -> snd s = (cel d, csize d) ->
  cspec_run (cmin n) (cmax n) s os = Some s' ->
  exists d', c_run n d os = Some d' /\ CInvariant n s' /\
    CInvQ (fst (fst s')) (snd (fst s')) d' /\ snd s' = (cel d', csize d').
Proof.
  induction os as [|o os IH]; intros s d s' HC HI Hs H; unfold cspec_run, c_run in *; cbn in H |- *.
  - injection H as <-. exists d. auto.
  - destruct (cspec_op (cmin n) (cmax n) s o) as [s1|] eqn:E; [|discriminate].
    pose proof (cspec_op_inv _ _ _ _ HC E) as HC1.
    destruct s as [[c k0] [l k]]. cbn in HI, Hs. injection Hs as -> ->.
    destruct HC as (_ & _ & _ & ? & ? & ?).
    destruct (c_step_spec n c k0 d o s1) as (d1 & E1 & HI1 & Hs1); auto; try lia.
    rewrite E1. eapply IH; eauto.
Qed.

(** *** initialisation *)
Lemma qtrunc_zq z : qtrunc (zq z) = z.
Proof.
  unfold qtrunc. destruct (qleb _ _).
  - rewrite (Qfloor_comp _ _ (this_zq z)). apply Qfloor_Z.
  - rewrite (Qceiling_comp _ _ (this_zq z)). apply Qceiling_Z.
Qed.

Lemma qmem_spec x s : qmem x s = true <-> In x s.
Proof.
  unfold qmem. rewrite existsb_exists. split.
  - intros [y [Hy E]]. destruct (qeqb_spec x y); [subst; auto|discriminate].
  - intros H. exists x. split; auto. apply qeqb_refl.
Qed.

Lemma qset_acc l : forall s, NoDup s ->
  NoDup (fold_left (fun s x => if qmem x s then s else x :: s) l s) /\
  forall x, In x (fold_left (fun s x => if qmem x s then s else x :: s) l s) <-> In x s \/ In x l.
Proof.
  induction l as [|a l IH]; intros s Hs; cbn.
  - split; auto. intros; tauto.
  - destruct (qmem a s) eqn:E.
    + destruct (IH s Hs) as [H1 H2]. split; auto. intros x. rewrite H2.
      apply qmem_spec in E. split; [tauto|]. intros [?|[<-|?]]; auto.
    + destruct (IH (a :: s)) as [H1 H2].
      { constructor; auto. intros Hin. apply qmem_spec in Hin. congruence. }
      split; auto. intros x. rewrite H2. cbn. tauto.
Qed.
Lemma qset_NoDup l : NoDup (qset l).
Proof. apply (qset_acc l []). constructor. Qed.
Lemma qset_In l x : In x (qset l) <-> In x l.
Proof. unfold qset. rewrite (proj2 (qset_acc l [] (NoDup_nil _))). cbn. tauto. Qed.
Lemma qset_length l : length (qset l) < length l \/ (NoDup l /\ length (qset l) = length l).
Proof.
  assert (Hle : length (qset l) <= length l).
  { apply NoDup_incl_length; [apply qset_NoDup|]. intros x. apply qset_In. }
  destruct (le_lt_dec (length l) (length (qset l))); auto. right.
  split; [|lia]. apply NoDup_incl_NoDup with (qset l); auto; [apply qset_NoDup|].
  intros x. apply qset_In.
Qed.

Lemma nq_inj a b : nq a = nq b -> a = b.
Proof. intros H. apply zq_inj in H. lia. Qed.

Lemma qrange_In n x : In x (qrange n) <-> exists z, x = zq z /\ (0 <= z < Z.of_nat n)%Z.
Proof.
  unfold qrange. rewrite in_map_iff. split.
  - intros [k [<- Hk]]. apply in_seq in Hk. exists (Z.of_nat k). split; auto. lia.
  - intros [z [-> Hz]]. exists (Z.to_nat z). unfold nq. rewrite Z2Nat.id by lia.
    split; auto. apply in_seq. lia.
Qed.
Lemma qrange_NoDup n : NoDup (qrange n).
Proof.
  unfold qrange. apply FinFun.Injective_map_NoDup; [intros a b; apply nq_inj|apply seq_NoDup].
Qed.

Definition valid_contents (n : cnode) (contents : list num) : Prop :=
  cmin n <= length contents <= cmax n /\ NoDup contents /\
  forall x, In x contents -> exists z, x = zq z /\ (0 <= z < Z.of_nat (cmaxval n))%Z.

Lemma NoDup_app' {A} (l1 l2 : list A) :
  NoDup l1 -> NoDup l2 -> (forall x, In x l1 -> ~ In x l2) -> NoDup (l1 ++ l2).
Proof.
  induction l1 as [|a l1 IH]; cbn; auto. intros H1 H2 H. inversion_clear H1.
  constructor.
  - rewrite in_app_iff. intros [?|?]; auto. eapply H; eauto.
  - apply IH; auto.
Qed.

Lemma collection_init_ok n contents :
  valid_contents n contents ->
  exists d, collection_init n contents = Ok d /\ c_view d = contents /\
    cprev d = [] /\ csize d = length contents /\ CInvQ (cel d) (csize d) d /\
    Permutation (cel d) (qrange (cmaxval n)).
Proof.
  intros ((Hmin & Hmax) & Hnd & Hr). unfold collection_init.
  replace (length contents <? cmin n) with false by lia.
  replace (cmax n <? length contents) with false by lia.
  destruct (existsb _ contents) eqn:E.
  { exfalso. apply existsb_exists in E. destruct E as [x [Hx E]].
    destruct (Hr x Hx) as [z [-> [Hz1 Hz2]]]. rewrite qtrunc_zq, qeqb_refl in E. cbn in E.
    rewrite <- zq_0 in E. destruct (qltb_spec (zq z) (zq 0)) as [H|]; [rewrite zq_lt in H; lia|].
    cbn in E. unfold nq in E. destruct (qleb_spec (zq (Z.of_nat (cmaxval n))) (zq z)) as [H|];
      [rewrite zq_le in H; lia|discriminate]. }
  destruct (qset_length contents) as [Hlt|[_ Hlen]].
  { exfalso. assert (length contents <= length (qset contents)); [|lia].
    apply NoDup_incl_length; auto. intros x. apply qset_In. }
  replace (length (qset contents) <? length contents) with false by lia.
  eexists. split; [reflexivity|]. rewrite Hlen. unfold c_view. cbn [c_new cel csize cprev].
  split; [|split; [reflexivity|split; [reflexivity|split]]].
  - now apply firstn_exact.
  - apply CInv_init. rewrite app_length. lia.
  - apply NoDup_Permutation.
    + apply NoDup_app'; auto.
      * apply NoDup_filter, qrange_NoDup.
      * intros x Hx Hf. apply filter_In in Hf. destruct Hf as [_ Hf].
        rewrite (proj2 (qmem_spec x _)) in Hf; [discriminate|]. now apply qset_In.
    + apply qrange_NoDup.
    + intros x. rewrite in_app_iff, filter_In, qrange_In. split.
      * intros [Hx|[Hx _]]; auto.
      * intros Hx. destruct (qmem x (qset contents)) eqn:Em.
        -- left. apply qset_In. now apply qmem_spec.
        -- right. auto.
Qed.

Lemma collection_init_cases n contents :
  valid_contents n contents \/ collection_init n contents = Throw.
Proof.
  unfold collection_init.
  destruct (Nat.ltb_spec (length contents) (cmin n)); auto.
  destruct (Nat.ltb_spec (cmax n) (length contents)); auto.
  destruct (existsb _ contents) eqn:E; auto.
  destruct (Nat.ltb_spec (length (qset contents)) (length contents)); auto.
  left. split; [lia|]. split.
  - destruct (qset_length contents) as [|[? _]]; [lia|auto].
  - intros x Hx.
    assert (Ex : (negb (qeqb (zq (qtrunc x)) x) || qltb x 0 || qleb (nq (cmaxval n)) x) = false).
    { destruct (_ || _) eqn:E2; auto.
      assert (existsb (fun v => negb (qeqb (zq (qtrunc v)) v) || qltb v 0
                || qleb (nq (cmaxval n)) v) contents = true)
        by (apply existsb_exists; eauto). congruence. }
    apply orb_false_iff in Ex. destruct Ex as [Ex E3]. apply orb_false_iff in Ex.
    destruct Ex as [E1 E2].
    destruct (qeqb_spec (zq (qtrunc x)) x) as [Ez|]; [|discriminate].
    exists (qtrunc x). split; auto.
    destruct (qltb_spec x 0) as [|Hn]; [discriminate|].
    destruct (qleb_spec (nq (cmaxval n)) x) as [|Hm]; [discriminate|].
    rewrite <- Ez, <- zq_0, zq_lt in Hn. rewrite <- Ez in Hm. unfold nq in Hm. rewrite zq_le in Hm. lia.
Qed.
Lemma collection_init_throw n contents :
  ~ valid_contents n contents -> collection_init n contents = Throw.
Proof. destruct (collection_init_cases n contents); tauto. Qed.

(** States a caller can start from: explicit, default list, default set. *)
Definition c_initial (n : cnode) (d : cdata num) : Prop :=
  (exists contents, collection_init n contents = Ok d) \/
  d = list_init_default n \/ d = set_init_default n.

Lemma collection_node_ok mv lo hi n : collection_node mv lo hi = Some n ->
  cmin n <= cmax n /\ cmax n <= cmaxval n.
Proof.
  unfold collection_node. destruct (Nat.ltb_spec hi lo); [discriminate|].
  destruct (Nat.ltb_spec mv hi); [discriminate|]. intros H'. injection H' as <-. cbn. lia.
Qed.

Lemma qrange_length n : length (qrange n) = n.
Proof. unfold qrange. now rewrite map_length, seq_length. Qed.

Lemma c_initial_ok n d : (exists mv lo hi, collection_node mv lo hi = Some n) -> c_initial n d ->
  CInvQ (cel d) (csize d) d /\ CInvariant n ((cel d, csize d), (cel d, csize d)).
Proof.
  intros (mv & lo & hi & Hn) Hd. apply collection_node_ok in Hn. destruct Hn as [H1 H2].
  destruct Hd as [[contents Hc]|[-> | ->]].
  - destruct (collection_init n contents) as [d0| |] eqn:E; try discriminate.
    injection Hc as ->.
    assert (Hv : valid_contents n contents)
      by (destruct (collection_init_cases n contents); [auto|congruence]).
    destruct (collection_init_ok n contents Hv) as (d1 & E1 & Hview & Hp & Hs & HI & Hperm).
    rewrite E in E1. injection E1 as <-. split; auto.
    split; [reflexivity|]. split; [eapply Permutation_NoDup; [symmetry; eauto|apply qrange_NoDup]|].
    split. { intros x Hx. apply qrange_In. eapply Permutation_in; eauto. }
    destruct Hv as [Hl _]. rewrite Hs. apply Permutation_length in Hperm.
    rewrite qrange_length in Hperm. lia.
  - split.
    + apply CInv_init. rewrite qrange_length. auto.
    + cbn. split; [reflexivity|]. split; [apply qrange_NoDup|].
      split. { intros x Hx. apply qrange_In in Hx. destruct Hx as [z [-> Hz]]. exists z. split; auto. lia. }
      rewrite qrange_length. lia.
  - split.
    + apply CInv_init. rewrite qrange_length. cbn. lia.
    + cbn. split; [reflexivity|]. split; [apply qrange_NoDup|].
      split. { intros x Hx. apply qrange_In in Hx. auto. }
      rewrite qrange_length. lia.
Qed.

