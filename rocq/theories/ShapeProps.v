(** C21 broadcasting, C22 flat/multi-dimensional indices, C23 contiguity, C24 strided iteration. *)
From Verif Require Import Base SliceModel ShapeModel ShapeSpec ShapeProofs ShapeProofs2.
Local Open Scope Z_scope.

(** * C21 *)
Theorem C21_broadcast_numpy : forall l r s,
  broadcast_shape l r = Ok s <-> compatible l r /\ is_broadcast l r s.
Proof.
  intros l r s. split.
  - intros H. unfold broadcast_shape in H. destruct (bcast (rev l) (rev r)) as [t|] eqn:E; [|discriminate].
    assert (C : compatible l r) by (intros i; apply (bcast_some _ _ _ E)). split; [exact C|].
    destruct (broadcast_ok l r C) as [s' [E' B]]. unfold broadcast_shape in E'. rewrite E in E'.
    congruence.
  - intros [C B]. destruct (broadcast_ok l r C) as [s' [E [L D]]]. rewrite E. f_equal.
    destruct B as [L2 D2]. rewrite <- (rev_involutive s'), <- (rev_involutive s). f_equal.
    apply (nth_ext _ _ 1 1); rewrite ?rev_length; [congruence|].
    intros n _. unfold dimr in *. rewrite D, D2. reflexivity.
Qed.
Print Assumptions C21_broadcast_numpy.

Theorem C21_incompatible_throws : forall l r, ~ compatible l r -> broadcast_shape l r = Throw.
Proof. exact broadcast_bad. Qed.
Print Assumptions C21_incompatible_throws.

Theorem C21_commutative : forall l r, broadcast_shape l r = broadcast_shape r l.
Proof. intros. unfold broadcast_shape. now rewrite bcast_comm. Qed.
Print Assumptions C21_commutative.

Theorem C21_idempotent : forall l, broadcast_shape l l = Ok l.
Proof. intros. unfold broadcast_shape. now rewrite bcast_idem, rev_involutive. Qed.
Print Assumptions C21_idempotent.

Theorem C21_associative : forall l r t,
  rbind (broadcast_shape l r) (fun s => broadcast_shape s t) =
  rbind (broadcast_shape r t) (fun s => broadcast_shape l s).
Proof.
  intros. unfold broadcast_shape. pose proof (bcast_assoc (rev l) (rev r) (rev t)) as A.
  destruct (bcast (rev l) (rev r)), (bcast (rev r) (rev t)); cbn [rbind ob] in *;
    rewrite ?rev_involutive, ?A, <- ?A; reflexivity.
Qed.
Print Assumptions C21_associative.

Example C21_example : broadcast_shape [3; 1; 5] [4; 1] = Ok [3; 4; 5] /\ broadcast_shape [-1; 1] [7] = Ok [-1; 7] /\
  broadcast_shape [-1] [3] = Throw.
Proof. vm_compute. auto. Qed.

(** * C22 *)
Theorem C22_ravel_unravel : forall shape idx, Forall (fun d => 0 < d) shape -> 8 * prod shape <= SMAX ->
  in_range shape idx ->
  0 <= rank shape idx < prod shape /\
  ravel_multi_index (shape_to_strides shape) idx = Ok (rank shape idx) /\
  unravel_index (shape_to_strides shape) (rank shape idx) = Ok idx.
Proof.
  intros shape idx HP HB R. split; [now apply rank_bounds|]. split; [|now apply unravel_ok].
  unfold ravel_multi_index. rewrite ravel_from_ok; auto; lia.
Qed.
Print Assumptions C22_ravel_unravel.

Theorem C22_unravel_ravel : forall shape n, Forall (fun d => 0 < d) shape -> 8 * prod shape <= SMAX ->
  0 <= n < prod shape -> exists idx,
  unravel_index (shape_to_strides shape) n = Ok idx /\ in_range shape idx /\
  ravel_multi_index (shape_to_strides shape) idx = Ok n.
Proof.
  intros shape n HP HB Hn. destruct (rank_surj shape n HP Hn) as [idx [R E]].
  exists idx. destruct (C22_ravel_unravel shape idx HP HB R) as [_ [A B]]. rewrite E in *. auto.
Qed.
Print Assumptions C22_unravel_ravel.

(** The size is the number of multi-indices, as long as it fits an [int]. *)
Theorem C22_size : forall shape, Forall (fun d => 0 <= d) shape -> prod shape < 2147483648 ->
  shape_to_size shape = prod shape.
Proof.
  intros [|d sh] HP HB; [reflexivity|]. unfold shape_to_size.
  inversion HP; subst. destruct (Z.ltb_spec d 0); [lia|]. rewrite fold_mul, Z.mul_1_l.
  assert (0 <= prod (d :: sh)) by (clear - HP; induction HP; cbn [prod]; nia).
  unfold to_int. rewrite Z.mod_small by lia. destruct (Z.ltb_spec (prod (d :: sh)) 2147483648); lia.
Qed.
Print Assumptions C22_size.

Theorem C22_size_int_refuted : exists shape, Forall (fun d => 0 < d) shape /\ 8 * prod shape <= SMAX /\
  shape_to_size shape <> prod shape.
Proof.
  exists [65536; 65536]. split; [repeat constructor|]. split; vm_compute; congruence.
Qed.
Print Assumptions C22_size_int_refuted.

(** With a negative stride the unsigned division is wrong. *)
Theorem C22_negative_stride_refuted : exists strides idx n,
  ravel_multi_index strides idx = Ok n /\ 8 * n <> offset strides idx.
Proof. exists [-8], [1], 2305843009213693951. split; vm_compute; congruence. Qed.
Print Assumptions C22_negative_stride_refuted.

Example C22_example : let shape := [2; 3; 4] in
  shape_to_strides shape = [96; 32; 8] /\ unravel_index (shape_to_strides shape) 17 = Ok [1; 1; 1] /\
  ravel_multi_index (shape_to_strides shape) [1; 1; 1] = Ok 17 /\ shape_to_size shape = 24.
Proof. vm_compute. auto. Qed.
Example C22_example_hyps : Forall (fun d => 0 < d) [2; 3; 4] /\ 8 * prod [2; 3; 4] <= SMAX /\ in_range [2; 3; 4] [1; 1; 1].
Proof. split; [repeat constructor|]. split; [vm_compute; congruence|]. repeat constructor; lia. Qed.

(** * C23 *)
Theorem C23_contiguous_sound : forall shape strides, length shape = length strides ->
  Forall (fun d => 0 <= d) shape -> is_contiguous shape strides = Some true -> layout shape strides.
Proof. exact contig_layout. Qed.
Print Assumptions C23_contiguous_sound.

Theorem C23_contiguous_exact : forall shape strides, length shape = length strides ->
  Forall (fun d => 0 < d) shape ->
  (is_contiguous shape strides = Some true <-> layout shape strides) /\
  is_contiguous shape strides <> None.
Proof.
  intros shape strides L HP.
  assert (HP0 : Forall (fun d => 0 <= d) shape) by (eapply Forall_impl; [|exact HP]; cbn; lia).
  split; [split|].
  - now apply contig_layout.
  - now apply layout_contig.
  - apply contig_defined. apply Forall_rev. now apply Forall_combine_l.
Qed.
Print Assumptions C23_contiguous_exact.

(** State-dependent first axis: contiguous for every current length. *)
Theorem C23_contiguous_dynamic : forall sh s st, length sh = length st -> Forall (fun d => 0 < d) sh ->
  (is_contiguous (-1 :: sh) (s :: st) = Some true <-> forall n, 0 <= n -> layout (n :: sh) (s :: st)).
Proof. exact contig_dynamic. Qed.
Print Assumptions C23_contiguous_dynamic.

(** The strides computed from a shape are contiguous. *)
Theorem C23_default_strides : forall shape, layout shape (shape_to_strides shape).
Proof. exact strides_layout. Qed.
Print Assumptions C23_default_strides.

(** An empty array is (trivially) laid out contiguously, but is not always classified so. *)
Theorem C23_empty_refuted : exists shape strides, length shape = length strides /\
  Forall (fun d => 0 <= d) shape /\ layout shape strides /\ is_contiguous shape strides = Some false.
Proof.
  exists [0; 3], [48; 16]. split; [reflexivity|]. split; [repeat constructor; lia|].
  split; [|reflexivity]. intros idx R. inversion R; subst. lia.
Qed.
Print Assumptions C23_empty_refuted.

Example C23_example : is_contiguous [2; 1; 3] [24; 7; 8] = Some true /\ is_contiguous [2; 3] [48; 16] = Some false /\
  is_contiguous [-1; 3] [24; 8] = Some true.
Proof. vm_compute. auto. Qed.

(** * C24 *)
Definition strided (shape strides : list Z) : Prop :=
  shape <> [] /\ length shape = length strides /\ Forall (fun d => 0 < d) (tl shape) /\
  Forall (fun s => (8 | s)) strides.

Lemma strided_inv shape strides : strided shape strides -> exists d0 s0 sh st,
  shape = d0 :: sh /\ strides = s0 :: st /\ length sh = length st /\ Forall (fun d => 0 < d) sh /\
  (8 | s0) /\ mult8 (rev (combine sh st)).
Proof.
  intros [N [L [HP M]]]. destruct shape as [|d0 sh]; [congruence|]. destruct strides as [|s0 st]; [discriminate L|].
  exists d0, s0, sh, st. split; [reflexivity|]. split; [reflexivity|]. cbn in L, HP. inversion M; subst.
  split; [lia|]. split; [exact HP|]. split; [assumption|]. apply Forall_rev.
  assert (L' : length sh = length st) by lia. clear - L' H2. revert sh L'. induction H2; intros [|d sh] L'; try discriminate L'; cbn.
  - constructor.
  - constructor; auto.
Qed.

(** Advancing [k] times and advancing by [k] reach the same state, on the element of rank [k]. *)
Theorem C24_forward : forall shape strides buff k, strided shape strides ->
  let begin := it_begin false buff shape strides in
  let it := Nat.iter k it_inc begin in
  it_add begin (Z.of_nat k) = Some it /\
  exists idx, in_range_tl shape idx /\ rank shape idx = Z.of_nat k /\ 8 * (it_ptr it - buff) = offset strides idx.
Proof.
  intros shape strides buff k HS. destruct (strided_inv _ _ HS) as [d0 [s0 [sh [st [-> [-> [L [HP [M0 M]]]]]]]]].
  cbv zeta. pose proof (begin_rpoints d0 s0 sh st L buff HP) as B.
  assert (P : rpoints (rev (combine sh st)) s0 buff
     (Nat.iter k it_inc (it_begin false buff (d0 :: sh) (s0 :: st))) (Z.of_nat k)).
  { induction k as [|k IH]; [exact B|]. cbn [Nat.iter nat_rect].
    replace (Z.of_nat (S k)) with (Z.of_nat k + 1) by lia. now apply it_inc_points. }
  split; [|exact (rpoints_points d0 s0 sh st L _ _ _ P)].
  destruct (it_add_points _ _ _ _ _ (Z.of_nat k) M M0 B) as [it' [E P']]. rewrite E. f_equal.
  eapply rpoints_inj; eauto.
Qed.
Print Assumptions C24_forward.

(** Jumps (also backwards) compose, and stepping back inverts stepping forward. *)
Theorem C24_jumps : forall shape strides buff n m, strided shape strides ->
  let begin := it_begin false buff shape strides in
  exists a b, it_add begin n = Some a /\ it_add a m = Some b /\ it_add begin (n + m) = Some b /\
    it_add b (- m) = Some a /\ it_dec (it_inc a) = a /\ it_inc (it_dec a) = a /\
    exists idx, in_range_tl shape idx /\ rank shape idx = n /\ 8 * (it_ptr a - buff) = offset strides idx.
Proof.
  intros shape strides buff n m HS. destruct (strided_inv _ _ HS) as [d0 [s0 [sh [st [-> [-> [L [HP [M0 M]]]]]]]]].
  cbv zeta. pose proof (begin_rpoints d0 s0 sh st L buff HP) as B.
  destruct (it_add_points _ _ _ _ _ n M M0 B) as [a [Ea Pa]].
  destruct (it_add_points _ _ _ _ _ m M M0 Pa) as [b [Eb Pb]].
  destruct (it_add_points _ _ _ _ _ (n + m) M M0 B) as [b' [Eb' Pb']].
  destruct (it_add_points _ _ _ _ _ (- m) M M0 Pb) as [a' [Ea' Pa']].
  rewrite Z.add_0_l in *.
  exists a, b. split; [exact Ea|]. split; [exact Eb|].
  split; [rewrite Eb'; f_equal; eapply rpoints_inj; eauto|].
  split; [rewrite Ea'; f_equal; eapply rpoints_inj; [exact Pa'|]; replace (n + m + - m) with n by lia; exact Pa|].
  split; [eapply rpoints_inj; [|exact Pa]; replace n with (n + 1 - 1) by lia;
          apply it_dec_points; auto; apply it_inc_points; auto|].
  split; [eapply rpoints_inj; [|exact Pa]; replace n with (n - 1 + 1) by lia;
          apply it_inc_points; auto; apply it_dec_points; auto|].
  exact (rpoints_points d0 s0 sh st L _ _ _ Pa).
Qed.
Print Assumptions C24_jumps.

(** [view[n]] reads the n-th element in row-major order, through either kind of iterator. *)
Theorem C24_element : forall shape strides buff c idx, strided shape strides -> in_range shape idx ->
  (c = true -> is_contiguous shape strides = Some true) ->
  exists it, it_add (it_begin c buff shape strides) (rank shape idx) = Some it /\
    8 * (it_ptr it - buff) = offset strides idx.
Proof.
  intros shape strides buff c idx HS R C. destruct c.
  - exists {| it_ptr := buff + rank shape idx; it_shape := None |}. split; [reflexivity|]. cbn [it_ptr].
    destruct HS as [N [L [HP M]]]. rewrite (contig_layout shape strides L); auto; [lia|].
    clear - R. induction R; constructor; auto. lia.
  - destruct (strided_inv _ _ HS) as [d0 [s0 [sh [st [-> [-> [L [HP [M0 M]]]]]]]]].
    pose proof (begin_rpoints d0 s0 sh st L buff HP) as B.
    destruct (it_add_points _ _ _ _ _ (rank (d0 :: sh) idx) M M0 B) as [a [Ea Pa]].
    exists a. split; [exact Ea|].
    inversion R as [|d i sh' t Hi HR]; subst. rewrite Z.add_0_l in Pa.
    destruct Pa as [loc [i0 [Rl [N [P S]]]]].
    assert (LI : length sh = length t) by (apply in_range_len; exact HR).
    apply (rin_rev sh st t L) in HR.
    rewrite rank_cons in N by exact LI. rewrite <- (rrank_rev sh st t i) in N by auto.
    destruct (rrank_inj _ _ _ _ _ Rl HR N) as [-> ->]. rewrite P, roff_rev by auto. cbn [offset]. lia.
Qed.
Print Assumptions C24_element.

(** When no two elements share memory, iterators compare equal exactly when they stand on the same
    element, and the distance and order between iterators are those of their positions. *)
Theorem C24_distance : forall shape strides buff n m a b, strided shape strides -> spread shape strides ->
  let begin := it_begin false buff shape strides in
  it_add begin n = Some a -> it_add begin m = Some b ->
  (it_ptr a = it_ptr b <-> n = m) /\
  (exists a' b', it_diff a b = Some (n - m, a', b')) /\
  it_ltb a b = Some (n <? m).
Proof.
  intros shape strides buff n m a b HS SP. destruct (strided_inv _ _ HS) as [d0 [s0 [sh [st [-> [-> [L [HP [M0 M]]]]]]]]].
  cbv zeta. intros Ea Eb. pose proof (begin_rpoints d0 s0 sh st L buff HP) as B.
  destruct (it_add_points _ _ _ _ _ n M M0 B) as [a' [Ea' Pa]].
  destruct (it_add_points _ _ _ _ _ m M M0 B) as [b' [Eb' Pb]].
  assert (a' = a) by congruence. assert (b' = b) by congruence. subst a' b'. rewrite Z.add_0_l in *.
  assert (I : forall n m a b, rpoints (rev (combine sh st)) s0 buff a n -> rpoints (rev (combine sh st)) s0 buff b m ->
              it_ptr a = it_ptr b -> n = m).
  { clear - L SP. intros n m a b Pa Pb E.
    destruct (rpoints_points d0 s0 sh st L _ _ _ Pa) as [ia [Ra [Na Oa]]].
    destruct (rpoints_points d0 s0 sh st L _ _ _ Pb) as [ib [Rb [Nb Ob]]].
    assert (ia = ib); [|congruence].
    apply (offset_inj_tl (d0 :: sh) (s0 :: st)); auto; [cbn; lia|]. lia. }
  assert (Z0 : s0 <> 0).
  { destruct SP as [W _]. assert (0 <= span sh st); [|lia]. clear - HP.
    revert st. induction HP; intros [|s st]; cbn [span]; try lia. specialize (IHHP st). nia. }
  split; [split|split].
  - apply I; auto.
  - intros <-. f_equal. eapply rpoints_inj; eauto.
  - eapply it_diff_ok; eauto.
  - unfold it_ltb. destruct (it_diff_ok _ _ _ b a m n M M0 Z0 Pb Pa) as [x [y E]]; [apply I; auto|].
    rewrite E. f_equal. destruct (Z.ltb_spec 0 (m - n)), (Z.ltb_spec n m); auto; lia.
Qed.
Print Assumptions C24_distance.

(** Taking the distance damages the operands: afterwards [++] no longer moves to the next element. *)
Theorem C24_distance_mutates_refuted : exists shape strides it d it' other,
  strided shape strides /\ spread shape strides /\
  it_add (it_begin false 0 shape strides) 1 = Some it /\
  it_diff it (it_begin false 0 shape strides) = Some (d, it', other) /\
  it_ptr (it_inc it) <> it_ptr (it_inc it').
Proof.
  exists [2; 2], [48; 16]. do 4 eexists.
  split; [split; [discriminate|]; split; [reflexivity|]; split; [repeat constructor; lia|];
          repeat constructor; [exists 6|exists 2]; lia|].
  split; [cbn; lia|].
  split; [vm_compute; reflexivity|]. split; [vm_compute; reflexivity|]. vm_compute. congruence.
Qed.
Print Assumptions C24_distance_mutates_refuted.

(** The view [A[:, ::-2]] of a (2, 3) array. *)
Example C24_example :
  map (fun k => it_ptr (Nat.iter k it_inc (it_begin false 2 [2; 2] [24; -16]))) [0; 1; 2; 3]%nat = [2; 0; 5; 3].
Proof. vm_compute. reflexivity. Qed.
Example C24_example_hyps : strided [2; 2] [24; -16] /\ spread [2; 2] [24; -16].
Proof.
  split; [|cbn; lia]. split; [discriminate|]. split; [reflexivity|]. split; [repeat constructor; lia|].
  repeat constructor; [exists 3|exists (-2)]; lia.
Qed.
