From Verif Require Import Base SliceModel Num ArithModel ArithSpec ArithProofs NarySpec NaryModel ReduceModel ReduceSpec PartialSpec SizeModel SizeSpec SizeProps BoundsModel BoundsSpec BoundsProofs.
Local Open Scope Qc_scope.

(** C38: results of a binary operation lie within the declared bounds and are integers where that is declared. *)
Theorem C38_binary : forall dbg o a b x y r hi lo, bin_new o b = Ok tt -> within a x -> within b y -> bop_func o x y = Some r ->
  bin_max dbg o a b = Ok hi -> bin_min o a b = Ok lo -> declares_ok lo hi (bin_integral o a b) r.
Proof. exact bin_ok. Qed.
Print Assumptions C38_binary.
(** Once the node exists there is always a result and, but for the assertions, bounds. *)
Theorem C38_binary_total : forall o a b x y, bin_new o b = Ok tt -> within a x -> within b y ->
  exists r hi lo, bop_func o x y = Some r /\ bin_max false o a b = Ok hi /\ bin_min o a b = Ok lo.
Proof.
  intros o a b x y Hn (A1 & A2 & _) (B1 & B2 & _). destruct o; cbn [bop_func bin_max bin_min bop_bool]; eauto 6.
  assert (S : (b_min b < 0 /\ b_max b < 0) \/ (0 < b_min b /\ 0 < b_max b)).
  { cbn [bin_new] in Hn. destruct (qltb_spec (b_min b) 0), (qltb_spec (b_max b) 0), (qltb_spec 0 (b_min b)), (qltb_spec 0 (b_max b)); cbn in Hn; try discriminate Hn; auto. }
  destruct (quots_ok a b x y S A1 A2 B1 B2) as (lo & hi & E1 & E2 & _ & _ & E3). destruct (qeqb_spec y 0); [contradiction|]. cbn [andb]. eauto 6.
Qed.
Print Assumptions C38_binary_total.
(** The bounds are attained, except those of the modulus and of truth values. *)
Definition bnd_ok (a : bnd) : Prop := b_min a <= b_max a /\ (b_int a = true -> is_int (b_min a) /\ is_int (b_max a)).
Theorem C38_attained : forall dbg o a b hi lo, bnd_ok a -> bnd_ok b -> bop_bool o = false -> o <> BMod ->
  bin_max dbg o a b = Ok hi -> bin_min o a b = Ok lo ->
  (exists x y, within a x /\ within b y /\ bop_func o x y = Some hi) /\ (exists x y, within a x /\ within b y /\ bop_func o x y = Some lo).
Proof.
  intros dbg o a b hi lo [La Ia] [Lb Ib] Ho Hm Hhi Hlo.
  assert (Wa : within a (b_min a) /\ within a (b_max a)) by (repeat split; try apply Qcle_refl; auto; intros H; apply Ia; auto).
  assert (Wb : within b (b_min b) /\ within b (b_max b)) by (repeat split; try apply Qcle_refl; auto; intros H; apply Ib; auto).
  destruct Wa as [W1 W2], Wb as [W3 W4].
  assert (M4 : forall p q r s, max4 p q r s = p \/ max4 p q r s = q \/ max4 p q r s = r \/ max4 p q r s = s) by (intros; unfold max4, qmax; repeat qcase; auto).
  assert (N4 : forall p q r s, min4 p q r s = p \/ min4 p q r s = q \/ min4 p q r s = r \/ min4 p q r s = s) by (intros; unfold min4, qmin; repeat qcase; auto).
  destruct o; try discriminate Ho; try congruence; cbn [bin_max bin_min bop_bool bop_func] in *;
    try (assert (E1 : forall p, Ok p = Ok hi -> p = hi) by (intros; congruence); assert (E2 : forall p, Ok p = Ok lo -> p = lo) by (intros; congruence);
         apply E1 in Hhi; apply E2 in Hlo; subst hi lo; clear E1 E2).
  - split; do 2 eexists; (split; [|split; [|reflexivity]]); auto.
  - split; do 2 eexists; (split; [|split; [|reflexivity]]); auto.
  - unfold prods. split.
    + destruct (M4 (b_min a * b_min b) (b_min a * b_max b) (b_max a * b_min b) (b_max a * b_max b)) as [E|[E|[E|E]]]; rewrite E; do 2 eexists; (split; [|split; [|reflexivity]]); auto.
    + destruct (N4 (b_min a * b_min b) (b_min a * b_max b) (b_max a * b_min b) (b_max a * b_max b)) as [E|[E|[E|E]]]; rewrite E; do 2 eexists; (split; [|split; [|reflexivity]]); auto.
  - destruct (dbg && _); [discriminate Hhi|]. unfold quots in *. destruct (qeqb_spec (b_min b) 0) as [|Z1]; [discriminate Hhi|]. destruct (qeqb_spec (b_max b) 0) as [|Z2]; [discriminate Hhi|]. cbn [orb] in *.
    assert (E1 : forall p, Ok p = Ok hi -> p = hi) by (intros; congruence). assert (E2 : forall p, Ok p = Ok lo -> p = lo) by (intros; congruence).
    apply E1 in Hhi. apply E2 in Hlo. subst hi lo. clear E1 E2.
    assert (D : forall x y, y <> 0 -> (if qeqb y 0 then None else Some (x / y)) = Some (x / y)) by (intros x y Hy; destruct (qeqb_spec y 0); [contradiction|reflexivity]).
    split.
    + destruct (M4 (b_min a / b_min b) (b_min a / b_max b) (b_max a / b_min b) (b_max a / b_max b)) as [E|[E|[E|E]]]; rewrite E; do 2 eexists; (split; [|split; [|apply D]]); auto.
    + destruct (N4 (b_min a / b_min b) (b_min a / b_max b) (b_max a / b_min b) (b_max a / b_max b)) as [E|[E|[E|E]]]; rewrite E; do 2 eexists; (split; [|split; [|apply D]]); auto.
  - split; do 2 eexists; (split; [|split; [|reflexivity]]); auto.
  - split; do 2 eexists; (split; [|split; [|reflexivity]]); auto.
Qed.
Print Assumptions C38_attained.
(** Compiled with assertions, asking for the maximum of a quotient stops the program if the dividend may be as low as zero. *)
Theorem C38_divide_assert_refuted : exists a b x y r, bin_new BDiv b = Ok tt /\ within a x /\ within b y /\ bop_func BDiv x y = Some r /\
  bin_max true BDiv a b = UB /\ bin_max false BDiv a b = Ok (zq 3).
Proof.
  exists (Bnd (zq 0) (zq 3) true), (Bnd (zq 1) (zq 2) true), (zq 2), (zq 1). eexists. split; [reflexivity|].
  split; [repeat split; try (apply zq_le; lia); intros _; eexists; reflexivity|]. split; [repeat split; try (apply zq_le; lia); intros _; eexists; reflexivity|].
  split; [reflexivity|]. split; [reflexivity|]. reflexivity.
Qed.
Print Assumptions C38_divide_assert_refuted.

(** Unary operations; [root] is any square root that respects the order.  For squares the operand must not
    be able to be negative, and the square must not exceed the largest double. *)
Theorem C38_unary : forall root dbg o a x hi lo, (forall u v, 0 <= u -> u <= v -> root u <= root v) ->
  un_new o a = Ok tt -> within a x -> un_max root dbg o a = Ok hi -> un_min root dbg o a = Ok lo ->
  (o = USquare -> 0 <= b_min a /\ x * x <= DMAX) ->
  declares_ok lo hi (un_integral o a) (uop_func root o x).
Proof. exact un_ok. Qed.
Print Assumptions C38_unary.
Theorem C38_unary_total : forall root dbg o a x, un_new o a = Ok tt -> within a x ->
  exists hi lo, un_max root dbg o a = Ok hi /\ un_min root dbg o a = Ok lo.
Proof.
  intros root dbg o a x Hn (H1 & H2 & _). assert (L : b_min a <= b_max a) by (eapply Qcle_trans; eassumption).
  destruct o; cbn [un_max un_min un_new] in *.
  - destruct (qltb_spec (b_max a) (b_min a)); [exfalso; qlra|]. rewrite andb_false_r. destruct (qleb_spec 0 (b_min a)), (qleb_spec 0 (b_max a)); cbn [andb]; eauto. exfalso; qlra.
  - eauto.
  - destruct (qleb DMAX (b_max a * b_max a)), (qleb DMAX (b_min a * b_min a)); eauto.
  - destruct (qltb_spec (b_min a) 0); [discriminate Hn|]. destruct (qltb_spec (b_max a) 0); [exfalso; qlra|]. rewrite !andb_false_r. eauto.
  - eauto.
  - eauto.
Qed.
Print Assumptions C38_unary_total.
(** The bounds of magnitudes and negations are attained, and so are those of roots and of squares of what cannot be negative. *)
Theorem C38_unary_attained : forall root dbg o a hi lo, bnd_ok a -> uop_bool o = false -> un_new o a = Ok tt -> (o = USquare -> 0 <= b_min a /\ b_max a * b_max a < DMAX) ->
  un_max root dbg o a = Ok hi -> un_min root dbg o a = Ok lo ->
  (exists x, within a x /\ uop_func root o x = hi) /\ (exists x, within a x /\ uop_func root o x = lo).
Proof.
  intros root dbg o a hi lo [La Ia] Ho Hn Hsq Hhi Hlo.
  assert (W1 : within a (b_min a)) by (split; [apply Qcle_refl|]; split; [exact La|]; intros H; now apply Ia).
  assert (W2 : within a (b_max a)) by (split; [exact La|]; split; [apply Qcle_refl|]; intros H; now apply Ia).
  destruct o; try discriminate Ho; cbn [un_max un_min uop_func] in *.
  - destruct (dbg && qltb (b_max a) (b_min a)); [discriminate|]. unfold qabs. destruct (qleb_spec 0 (b_min a)) as [H0|H0].
    + destruct (qleb_spec 0 (b_max a)) as [H1|]; [|exfalso; qlra]. cbn [andb] in *. injection Hhi as <-. injection Hlo as <-. split; [exists (b_max a)|exists (b_min a)]; (split; [assumption|]).
      * destruct (qltb_spec (b_max a) 0); [exfalso; qlra|reflexivity].
      * destruct (qltb_spec (b_min a) 0); [exfalso; qlra|reflexivity].
    + cbn [andb] in *. destruct (qleb_spec 0 (b_max a)) as [H1|H1]; injection Hhi as <-; injection Hlo as <-.
      * split.
        -- unfold qmax. qcase; [exists (b_min a)|exists (b_max a)]; (split; [assumption|]).
           ++ destruct (qltb_spec (b_min a) 0); [reflexivity|exfalso; qlra].
           ++ destruct (qltb_spec (b_max a) 0); [exfalso; qlra|reflexivity].
        -- exists 0. split; [|reflexivity]. split; [qlra|]. split; [exact H1|]. intros _. exists 0%Z. reflexivity.
      * split; [exists (b_min a)|exists (b_max a)]; (split; [assumption|]).
        -- destruct (qltb_spec (b_min a) 0); [reflexivity|exfalso; qlra].
        -- destruct (qltb_spec (b_max a) 0); [reflexivity|exfalso; qlra].
  - destruct (Hsq eq_refl) as [Hs1 Hs2]. destruct (qleb_spec DMAX (b_max a * b_max a)) as [H|H]; [exfalso; exact (Qclt_not_le _ _ Hs2 H)|]. injection Hhi as <-.
    split; [now exists (b_max a)|]. exists (b_min a). split; [exact W1|]. destruct (qleb_spec DMAX (b_min a * b_min a)) as [H'|H']; injection Hlo as <-; [|reflexivity]. exfalso.
    apply H. eapply Qcle_trans; [exact H'|]. eapply Qcle_trans; [apply Qcmult_le_compat_r; [exact La|exact Hs1]|]. rewrite (Qcmult_comm (b_max a) (b_min a)). apply Qcmult_le_compat_r; [exact La|]. eapply Qcle_trans; eassumption.
  - destruct (dbg && _); [discriminate|]. destruct (dbg && _); [discriminate|]. injection Hhi as <-. injection Hlo as <-. split; [now exists (b_max a)|now exists (b_min a)].
  - injection Hhi as <-. injection Hlo as <-. split; [now exists (b_min a)|now exists (b_max a)].
Qed.
Print Assumptions C38_unary_attained.
Example C38_unary_attained_ex : bnd_ok (Bnd (zq (-3)) (zq 5) true) /\ un_max (fun x => x) true UAbs (Bnd (zq (-3)) (zq 5) true) = Ok (zq 5) /\ un_min (fun x => x) true UAbs (Bnd (zq (-3)) (zq 5) true) = Ok (zq 0).
Proof. split; [split; [apply zq_le; lia|intros _; split; eexists; reflexivity]|]. split; reflexivity. Qed.
(** The square of an operand between -5 and 2 is declared to be between 25 and 4. *)
Theorem C38_square_refuted : exists root a x hi lo, within a x /\ un_max root true USquare a = Ok hi /\ un_min root true USquare a = Ok lo /\
  hi < uop_func root USquare x /\ lo = zq 25 /\ hi = zq 4 /\ exists y, within a y /\ uop_func root USquare y < lo.
Proof.
  exists (fun x => x), (Bnd (zq (-5)) (zq 2) true), (zq (-4)). do 2 eexists. split; [repeat split; try (apply zq_le; lia); intros _; eexists; reflexivity|].
  split; [vm_compute; reflexivity|]. split; [vm_compute; reflexivity|]. split; [vm_compute; reflexivity|]. split; [apply qc_eq; reflexivity|]. split; [apply qc_eq; reflexivity|].
  exists (zq 1). split; [repeat split; try (apply zq_le; lia); intros _; eexists; reflexivity|]. vm_compute. reflexivity.
Qed.
Print Assumptions C38_square_refuted.

(** Operations on any number of operands. *)
Theorem C38_nary : forall o bs xs r hi lo, Forall2 within bs xs -> combines o xs r -> nary_max o bs = Ok hi -> nary_min o bs = Ok lo ->
  declares_ok lo hi (nary_integral bs) r.
Proof. exact nary_ok. Qed.
Print Assumptions C38_nary.

(** C39: reductions.  The array's size lies within its declared limits; extrema are taken of at least one
    element; where no limit is known the result must be a double. *)
Theorem C39_reductions : forall o init a size smin smax l r, Forall (within a) l ->
  ((0 <= size)%Z -> size = Z.of_nat (length l)) ->
  (forall m, smin = Some m -> (m <= Z.of_nat (length l))%Z) -> (forall m, smax = Some m -> (Z.of_nat (length l) <= m)%Z) ->
  reduces_to o (olist init ++ l) r -> (o = RMax \/ o = RMin -> l <> []) ->
  ((size < 0)%Z -> o = RMul \/ o = RAdd -> finite_double r) ->
  declares_ok (red_min o init a size smin smax) (red_max o init a size smin smax) (red_integral o init a) r.
Proof. exact red_bounds_ok. Qed.
Print Assumptions C39_reductions.

(** Sums over an array obtained by cutting the ends of a decision, with the size limits that the array
    declares after being traced back (C42). *)
Theorem C39_sum_of_slices : forall ctx sz id i j init a l r, sized ctx sz -> trimmed ctx id -> info ctx id = Ok i -> substitute ctx 100 i = Ok j ->
  Z.of_nat (length l) = sz id -> Forall (within a) l -> reduces_to RAdd (olist init ++ l) r -> finite_double r ->
  declares_ok (red_min RAdd init a (-1) (si_min j) (si_max j)) (red_max RAdd init a (-1) (si_min j) (si_max j)) (red_integral RAdd init a) r.
Proof.
  intros ctx sz id i j init a l r Sz T I S L F R Fin. destruct (C42_bounds ctx sz id 100 i j Sz (or_introl T) I S) as [M1 M2].
  apply red_bounds_ok with (l := l); auto; try lia.
  intros [H|H]; discriminate H.
Qed.
Print Assumptions C39_sum_of_slices.
(** For other slices the declared limits may be wrong (C42_maximum_refuted), and then so are the bounds of
    the sum: seven elements equal to one, declared to have sum zero. *)
Theorem C39_sum_of_slices_refuted : exists ctx sz id i j a l r, sized ctx sz /\ info ctx id = Ok i /\ substitute ctx 100 i = Ok j /\
  Z.of_nat (length l) = sz id /\ Forall (within a) l /\ reduces_to RAdd (olist (Some 0) ++ l) r /\ red_max RAdd (Some 0) a (-1) (si_min j) (si_max j) < r.
Proof.
  pose (t := [(AOwn (Some 5%Z) (Some 10%Z), 10%Z); (ASlice 0 (Slice 3 SMAX 1) 1 1, 7%Z)]).
  exists (arrs t), (sizes t), 1%nat. do 2 eexists. exists (Bnd (zq 1) (zq 1) true), (repeat (zq 1) 7). eexists. split.
  { table.
    - split; intros x X; assert (X' : forall p q : Z, Some p = Some q -> p = q) by (intros; congruence); apply X' in X; lia.
    - exists 10%Z, (Slice 3 10 1), 7%Z. repeat split; reflexivity. }
  split; [vm_compute; reflexivity|]. split; [vm_compute; reflexivity|]. split; [reflexivity|].
  split; [apply Forall_forall; intros x Hx; apply repeat_spec in Hx; subst x; repeat split; try apply Qcle_refl; intros _; eexists; reflexivity|].
  split; [reflexivity|]. vm_compute. reflexivity.
Qed.
Print Assumptions C39_sum_of_slices_refuted.
(** The maximum of no elements with initial value 0 is 0, although 2 is declared to be the least. *)
Theorem C39_empty_maximum_refuted : exists a l r, Forall (within a) l /\ reduces_to RMax (olist (Some (zq 0)) ++ l) r /\
  r < red_min RMax (Some (zq 0)) a (-1) (Some 0%Z) (Some 4%Z).
Proof.
  exists (Bnd (zq 2) (zq 5) true), [], (zq 0). split; [constructor|]. split; [split; [now left|intros x [<-|[]]; apply Qcle_refl]|]. vm_compute. reflexivity.
Qed.
Print Assumptions C39_empty_maximum_refuted.

(** Sums along an axis. *)
Theorem C39_axis_sums : forall s axis init a l v, (0 <= nth axis s 0)%Z -> Forall (within a) l -> pr_fun s axis init [l] = Some v ->
  Forall (declares_ok (pr_min init a (nth axis s 0%Z)) (pr_max init a (nth axis s 0%Z)) (pr_integral init a)) v.
Proof.
  intros s axis init a l v Hd F E. unfold pr_fun, axis_fun in E. set (A := dim_before s axis) in *. set (B := dim_after s axis) in *.
  set (d := dim_at s axis) in *. destruct (Nat.eqb_spec (length l) (A * d * B)) as [L|]; [|discriminate E]. assert (Ev : v = map (axis_sum d B init l) (seq 0 (A * B))) by congruence. subst v.
  apply Forall_forall. intros x Hx. apply in_map_iff in Hx as (k & <- & Hk). apply in_seq in Hk. unfold axis_sum. set (col := map (fun j => nth (cell d B k j) l 0) (seq 0 d)).
  assert (Lc : Z.of_nat (length col) = nth axis s 0%Z) by (unfold col; rewrite map_length, seq_length; unfold d, dim_at; lia).
  assert (Fc : Forall (within a) col).
  { apply Forall_forall. intros y Hy. apply in_map_iff in Hy as (j & <- & Hj). apply in_seq in Hj. rewrite Forall_forall in F. apply F, nth_In. rewrite L. unfold cell.
    assert (B <> 0)%nat by (intros Z0; rewrite Z0, Nat.mul_0_r in Hk; lia). assert (k / B < A)%nat by (apply Nat.div_lt_upper_bound; lia). pose proof (Nat.mod_upper_bound k B ltac:(auto)).
    assert (k / B * d + j < A * d)%nat by nia. nia. }
  destruct (sum_range a col Fc) as [S1 S2]. rewrite Lc in S1, S2. unfold declares_ok, pr_min, pr_max, pr_integral. split; [qlra|]. split; [qlra|].
  intros E1. apply andb_prop in E1 as [E1 E2]. apply is_int_plus; [now apply is_integer_spec|]. apply int_sum. eapply Forall_impl; [|exact Fc]. intros y (_ & _ & H). auto.
Qed.
Print Assumptions C39_axis_sums.

(** Cases: a product and a quotient with mixed signs. *)
Example C38_example : let a := Bnd (zq (-3)) (zq 4) true in let b := Bnd (zq (-7)) (zq (-2)) true in
  within a (zq 3) /\ within b (zq (-5)) /\ bin_new BDiv b = Ok tt /\
  bin_max true BMul a b = Ok (zq 21) /\ bin_min BMul a b = Ok (zq (-28)) /\ bop_func BMul (zq 3) (zq (-5)) = Some (zq (-15)) /\
  bin_max true BDiv a b = Ok (Q2Qc (3 # 2)) /\ bin_min BDiv a b = Ok (zq (-2)).
Proof.
  intros a b. split; [repeat split; try (apply zq_le; lia); intros _; eexists; reflexivity|]. split; [repeat split; try (apply zq_le; lia); intros _; eexists; reflexivity|].
  repeat split; vm_compute; f_equal; apply qc_eq; reflexivity.
Qed.
(** A product of three elements between -3 and 2 and a sum of two to four elements. *)
Example C39_example : let a := Bnd (zq (-3)) (zq 2) true in
  Forall (within a) [zq (-3); zq 2; zq (-3)] /\ reduces_to RMul (olist (Some (zq 1)) ++ [zq (-3); zq 2; zq (-3)]) (zq 18) /\
  red_max RMul (Some (zq 1)) a 3 None None = zq 18 /\ red_min RMul (Some (zq 1)) a 3 None None = zq (-27) /\
  red_max RAdd (Some (zq 1)) a (-1) (Some 2%Z) (Some 4%Z) = zq 9 /\ red_min RAdd (Some (zq 1)) a (-1) (Some 2%Z) (Some 4%Z) = zq (-11).
Proof.
  intros a. split; [repeat constructor; try (apply zq_le; lia); intros _; eexists; reflexivity|]. split; [apply qc_eq; reflexivity|].
  repeat split; apply qc_eq; vm_compute; reflexivity.
Qed.
