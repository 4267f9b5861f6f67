(** Static shapes: lemmas. *)
From Verif Require Import Base SliceModel ShapeModel ShapeSpec ShapeProofs StateDataModel StateDataSpec NodeSpec BinaryModel.
Local Open Scope Z_scope.

Lemma fold_mul_prod s : forall a, fold_left Z.mul s a = a * prod s.
Proof. induction s as [|d s IH]; intros a; cbn [fold_left prod]; [lia|]. rewrite IH. lia. Qed.

Lemma prod_app a b : prod (a ++ b) = prod a * prod b.
Proof. induction a as [|x a IH]; cbn [prod app]; [lia|]. rewrite IH. lia. Qed.

Lemma prod_ones n : prod (repeat 1 n) = 1.
Proof. induction n; cbn [repeat prod]; lia. Qed.

Lemma prod_all_pos s : Forall (fun d => 0 < d) s -> 0 < prod s.
Proof. intros H. induction H; cbn [prod]; lia. Qed.

Lemma wf_tl_pos s : wf_shape s -> 0 < prod (tl s).
Proof. intros [H _]. now apply prod_all_pos. Qed.

Lemma wf_prod_nonneg s : wf_shape s -> dynamic s = false -> 0 <= prod s.
Proof.
  intros [H _] D. destruct s as [|d s]; cbn [prod]; [lia|]. cbn [tl] in H. apply prod_all_pos in H.
  unfold dynamic in D. apply Z.ltb_ge in D. nia.
Qed.

Lemma static_size s : wf_shape s -> dynamic s = false -> shape_to_size s = prod s.
Proof.
  intros W D. pose proof (wf_prod_nonneg s W D) as P. destruct s as [|d s]; [reflexivity|].
  unfold shape_to_size, dynamic in *. rewrite D, fold_mul_prod, Z.mul_1_l. unfold to_int.
  destruct W as [_ [W _]]. rewrite Z.mod_small by lia.
  destruct (Z.ltb_spec (prod (d :: s)) 2147483648); lia.
Qed.

Lemma dynamic_size s : dynamic s = true -> shape_to_size s = -1.
Proof. destruct s as [|d s]; [discriminate|]. unfold dynamic, shape_to_size. intros ->. reflexivity. Qed.

Lemma size_is_one s : wf_shape s -> (shape_to_size s =? 1) = single s.
Proof.
  intros W. unfold single. destruct (dynamic s) eqn:D; cbn [negb andb].
  - now rewrite (dynamic_size s D).
  - now rewrite (static_size s W D).
Qed.

Lemma size_neg s : wf_shape s -> (shape_to_size s <? 0) = dynamic s.
Proof.
  intros W. destruct (dynamic s) eqn:D.
  - now rewrite (dynamic_size s D).
  - rewrite (static_size s W D). pose proof (wf_prod_nonneg s W D). apply Z.ltb_ge. lia.
Qed.

Lemma pos_prod_one s : Forall (fun d => 0 < d) s -> prod s = 1 -> s = repeat 1 (length s).
Proof.
  intros H. induction H as [|d s P H IH]; intros E; [reflexivity|]. cbn [prod length repeat] in *.
  apply prod_all_pos in H. assert (d = 1) by nia. subst d. f_equal. apply IH. lia.
Qed.

Lemma single_ones s : wf_shape s -> single s = true -> s = repeat 1 (length s).
Proof.
  intros [W _] S. unfold single in S. destruct (dynamic s) eqn:D; cbn [negb andb] in S; [discriminate|].
  apply Z.eqb_eq in S. destruct s as [|d s]; [reflexivity|]. cbn [tl prod length repeat] in *.
  unfold dynamic in D. apply Z.ltb_ge in D. pose proof (prod_all_pos _ W).
  assert (d = 1) by nia. subst d. f_equal. apply pos_prod_one; auto. lia.
Qed.

Lemma single_not_dynamic s : single s = true -> dynamic s = false.
Proof. unfold single. destruct (dynamic s); auto. Qed.

Lemma single_prod s : single s = true -> prod s = 1.
Proof. unfold single. destruct (dynamic s); cbn; [discriminate|]. apply Z.eqb_eq. Qed.

Lemma single_fits s n : single s = true -> fits_len s n -> n = 1%nat.
Proof.
  intros S. unfold fits_len. rewrite (single_not_dynamic _ S), (single_prod _ S). lia.
Qed.

Lemma bcast_ones k : forall r, bcast (repeat 1 k) r = Some (r ++ repeat 1 (k - length r)).
Proof.
  induction k as [|k IH]; intros [|b r]; cbn [repeat bcast length Nat.sub app]; auto.
  - now rewrite app_nil_r.
  - rewrite IH. destruct (Z.eqb_spec 1 b) as [<-|]; auto.
Qed.

Lemma rev_repeat {A} (x : A) n : rev (repeat x n) = repeat x n.
Proof.
  induction n as [|n IH]; [reflexivity|]. cbn [repeat rev]. rewrite IH, <- (repeat_cons n x). reflexivity.
Qed.

Lemma broadcast_ones k r s : broadcast_shape (repeat 1 k) r = Ok s ->
  s = repeat 1 (k - length r) ++ r.
Proof.
  unfold broadcast_shape. rewrite rev_repeat, bcast_ones. intros H.
  assert (E : s = rev (rev r ++ repeat 1 (k - length (rev r)))) by congruence.
  rewrite E, rev_app_distr, rev_repeat, rev_involutive, rev_length. reflexivity.
Qed.

Lemma broadcast_single ls rs s : wf_shape ls -> single ls = true -> wf_shape s ->
  broadcast_shape ls rs = Ok s ->
  dynamic s = dynamic rs /\ forall n, fits_len rs n -> fits_len s n.
Proof.
  intros W S Ws H. rewrite (single_ones ls W S) in H. apply broadcast_ones in H. subst s.
  remember (length ls - length rs)%nat as m. destruct m as [|m].
  - cbn [repeat app]. split; auto.
  - cbn [repeat app] in *. destruct Ws as [T _]. cbn [tl] in T. apply Forall_app in T. destruct T as [_ T].
    assert (D : dynamic rs = false).
    { destruct rs as [|d rs]; [reflexivity|]. inversion T; subst. unfold dynamic. apply Z.ltb_ge. lia. }
    split; [rewrite D; reflexivity|]. intros n. unfold fits_len. rewrite D. cbn [dynamic Z.ltb].
    cbn [prod]. rewrite prod_app, prod_ones. intros ->. change (1 <? 0) with false. cbn match. lia.
Qed.

Lemma zlist_eqb_spec a b : reflect (a = b) (zlist_eqb a b).
Proof. unfold zlist_eqb. destruct (list_eq_dec Z.eq_dec a b); constructor; auto. Qed.

Lemma state_shape_fixed s n : dynamic s = false -> state_shape s n = s.
Proof. destruct s as [|d s]; [reflexivity|]. unfold dynamic, state_shape. now intros ->. Qed.

Lemma state_shape_length s n : length (state_shape s n) = length s.
Proof. destruct s as [|d s]; [reflexivity|]. unfold state_shape. destruct (d <? 0); reflexivity. Qed.

(** A state-dependent array of length [n] has a shape of product [n]. *)
Lemma state_shape_prod s n : wf_shape s -> dynamic s = true -> fits_len s n ->
  prod (state_shape s n) = Z.of_nat n /\ state_shape s n = Z.of_nat n / prod (tl s) :: tl s.
Proof.
  intros W D F. pose proof (wf_tl_pos s W) as P. unfold fits_len in F. rewrite D in F.
  destruct F as [k [K F]]. destruct s as [|d s]; [discriminate|]. unfold dynamic, state_shape in *.
  rewrite D. cbn [tl prod] in *. rewrite F, Z.div_mul by lia. split; [lia|reflexivity].
Qed.
