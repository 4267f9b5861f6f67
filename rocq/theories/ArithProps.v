From Verif Require Import Base SliceModel Num ArithModel ArithSpec ArithProofs.

(** C40: the remainder has the sign of the divisor and a smaller magnitude... *)
Theorem C40_floored : forall x y, y <> zq 0 -> floored_remainder x y (modulus x y).
Proof. intros x y H. rewrite zq_0 in H. now apply modulus_spec. Qed.
Print Assumptions C40_floored.

(** ... it is the one of floored division... *)
Theorem C40_floor : forall x y, y <> zq 0 -> (modulus x y = x - y * qfloor (x / y))%Qc.
Proof. intros x y H. rewrite zq_0 in H. apply floored_unique; auto. now apply modulus_spec. Qed.
Print Assumptions C40_floor.

(** ... no other number satisfies the description, integers give integers, and a zero divisor gives zero. *)
Theorem C40_unique : forall x y r, y <> zq 0 -> floored_remainder x y r -> r = modulus x y.
Proof. intros x y r H F. rewrite C40_floor by auto. rewrite zq_0 in H. now apply floored_unique. Qed.
Print Assumptions C40_unique.
Theorem C40_integers : forall a b, modulus (zq a) (zq b) = zq (if (b =? 0)%Z then 0 else a mod b).
Proof.
  intros a b. destruct (Z.eqb_spec b 0) as [-> |N].
  - unfold modulus. rewrite zq_0, qeqb_refl. reflexivity.
  - symmetry. apply C40_unique; [intros E; now apply zq_inj in E|]. split.
    + exists (a / b)%Z. rewrite zq_mult, zq_plus. f_equal. pose proof (Z.div_mod a b N). lia.
    + rewrite <- zq_0. split; intros H; apply (proj1 (zq_lt _ _)) in H.
      * pose proof (Z.mod_pos_bound a b H). split; [apply zq_le|apply zq_lt]; lia.
      * pose proof (Z.mod_neg_bound a b H). split; [apply zq_lt|apply zq_le]; lia.
Qed.
Print Assumptions C40_integers.
Theorem C40_zero_divisor : forall x, modulus x (zq 0) = zq 0.
Proof. intros x. unfold modulus. rewrite zq_0, qeqb_refl. reflexivity. Qed.
Print Assumptions C40_zero_divisor.

Example C40_example : modulus (zq (-7)) (zq 3) = zq 2 /\ modulus (zq 7) (zq (-3)) = zq (-2) /\ modulus (zq (-6)) (zq 3) = zq 0
  /\ modulus (zq 7 / zq 2)%Qc (zq 1) = (zq 1 / zq 2)%Qc /\ modulus (zq 5) (zq 0) = zq 0.
Proof. repeat split; vm_compute; reflexivity. Qed.

(** C41: construction. *)
Theorem C41_new : forall n d,
  (d = 0%Z -> fr_new n d = Throw) /\
  (forall f, fr_new n d = Ok f -> lowest f /\ fval f = (zq n / zq d)%Qc) /\
  (d <> 0%Z -> (- SMAX <= n <= SMAX)%Z -> (- SMAX <= d <= SMAX)%Z -> exists f, fr_new n d = Ok f).
Proof.
  intros n d. unfold fr_new. destruct (Z.eqb_spec d 0) as [-> |N].
  - repeat split; try discriminate; intros; contradiction.
  - split; [intros; contradiction|]. split.
    + intros f H. destruct (reduce_small _ _ H) as [Sn Sd]. destruct (reduce_ok n d Sn Sd N) as (g & E & L & V & _).
      assert (g = f) by congruence. subst g. split; [exact L|]. unfold fval. apply frac_eq; try assumption. destruct L; lia.
    + intros _ Sn Sd. destruct (reduce_ok n d Sn Sd N) as (g & E & _). eauto.
Qed.
Print Assumptions C41_new.

(** Multiplication. *)
Theorem C41_mul : forall f g, lowest f -> lowest g ->
  fr_mul f g <> Throw /\
  (forall h, fr_mul f g = Ok h -> lowest h /\ fval h = (fval f * fval g)%Qc) /\
  (Z.abs (numerator f * numerator g) <= SMAX -> denominator f * denominator g <= SMAX -> exists h, fr_mul f g = Ok h)%Z.
Proof.
  intros [a b] [c d] [Hb _] [Hd _]. cbn [denominator numerator] in *. unfold fr_mul. cbn [denominator numerator].
  assert (P : forall h, reduce (Frac (a * c) (b * d)) = Ok h -> lowest h /\ (fval h = fval (Frac a b) * fval (Frac c d))%Qc).
  { intros h H. destruct (reduce_small _ _ H) as [Sn Sd]. assert (N : (b * d)%Z <> 0%Z) by lia.
    destruct (reduce_ok (a * c) (b * d) Sn Sd N) as (g & E & L & V & _).
    assert (g = h) by congruence. subst g. split; [exact L|]. unfold fval. cbn [denominator numerator].
    assert (Nb : zq b <> 0%Qc) by (apply zq_neq0; lia). assert (Nd : zq d <> 0%Qc) by (apply zq_neq0; lia).
    transitivity (zq (a * c) / zq (b * d))%Qc.
    - apply frac_eq; try assumption. destruct L; lia.
    - rewrite <- !zq_mult. field. split; assumption. }
  split; [|split].
  - do 2 (apply rbind_nothrow; intros ?). apply reduce_nothrow.
  - intros h. destruct (schk (a * c)) eqn:A; cbn [rbind]; try discriminate. destruct (schk (b * d)) eqn:B; cbn [rbind]; try discriminate.
    apply schk_inv in A as [-> _]. apply schk_inv in B as [-> _]. apply P.
  - intros H1 H2. rewrite !schk_ok by (unfold SMIN, SMAX in *; nia). cbn [rbind].
    destruct (reduce_ok (a * c) (b * d)) as (h & E & _); [unfold small; lia|unfold small, SMAX in *; nia|nia|eauto].
Qed.
Print Assumptions C41_mul.

Theorem C41_mul_int : forall f n, lowest f ->
  (forall h, fr_mul_int f n = Ok h -> lowest h /\ fval h = (fval f * zq n)%Qc) /\
  (Z.abs (numerator f * n) <= SMAX -> denominator f <= SMAX -> exists h, fr_mul_int f n = Ok h)%Z.
Proof.
  intros [a b] n [Hb _]. cbn [denominator numerator] in *. unfold fr_mul_int. cbn [denominator numerator]. split.
  - intros h. destruct (schk (a * n)) eqn:A; cbn [rbind]; try discriminate. apply schk_inv in A as [-> _]. intros H.
    destruct (reduce_small _ _ H) as [Sn Sd]. assert (N : b <> 0%Z) by lia.
    destruct (reduce_ok (a * n) b Sn Sd N) as (g & E & L & V & _).
    assert (g = h) by congruence. subst g. split; [exact L|]. unfold fval. cbn [denominator numerator].
    assert (Nb : zq b <> 0%Qc) by (apply zq_neq0; lia).
    transitivity (zq (a * n) / zq b)%Qc.
    + apply frac_eq; try assumption. destruct L; lia.
    + rewrite <- !zq_mult. field. assumption.
  - intros H1 H2. rewrite !schk_ok by (unfold SMIN, SMAX in *; nia). cbn [rbind].
    destruct (reduce_ok (a * n) b) as (h & E & _); [unfold small; lia|unfold small, SMAX in *; lia|lia|eauto].
Qed.
Print Assumptions C41_mul_int.

(** Division by an integer of either sign; by zero it is refused. *)
Theorem C41_div_int : forall f n, lowest f ->
  (n = 0%Z -> fr_div_int f n = Throw) /\
  (forall h, fr_div_int f n = Ok h -> lowest h /\ fval h = (fval f / zq n)%Qc) /\
  (n <> 0 -> Z.abs (denominator f * n) <= SMAX -> Z.abs (numerator f) <= SMAX -> exists h, fr_div_int f n = Ok h)%Z.
Proof.
  intros [a b] n [Hb _]. cbn [denominator numerator] in *. unfold fr_div_int. cbn [denominator numerator].
  destruct (Z.eqb_spec n 0) as [-> |N].
  - repeat split; try discriminate; intros; contradiction.
  - split; [intros; contradiction|]. split.
    + intros h. destruct (schk (b * n)) eqn:A; cbn [rbind]; try discriminate. apply schk_inv in A as [-> _]. intros H.
      destruct (reduce_small _ _ H) as [Sn Sd]. assert (M : (b * n)%Z <> 0%Z) by lia.
      destruct (reduce_ok a (b * n) Sn Sd M) as (g & E & L & V & _).
      assert (g = h) by congruence. subst g. split; [exact L|]. unfold fval. cbn [denominator numerator].
      assert (Nb : zq b <> 0%Qc) by (apply zq_neq0; lia). assert (Nn : zq n <> 0%Qc) by (apply zq_neq0; lia).
      transitivity (zq a / zq (b * n))%Qc.
      * apply frac_eq; try assumption. destruct L; lia.
      * rewrite <- !zq_mult. field. split; assumption.
    + intros _ H1 H2. rewrite !schk_ok by (unfold SMIN, SMAX in *; nia). cbn [rbind].
      destruct (reduce_ok a (b * n)) as (h & E & _); [unfold small; lia|unfold small, SMAX in *; lia|lia|eauto].
Qed.
Print Assumptions C41_div_int.

(** Comparison is comparison of the numbers, and the conversion to an integer truncates. *)
Theorem C41_equal : forall f g, lowest f -> lowest g -> fr_eq f g = true <-> fval f = fval g.
Proof.
  intros f g Lf Lg. unfold fr_eq. rewrite Bool.andb_true_iff, !Z.eqb_eq. split.
  - intros [E1 E2]. unfold fval. now rewrite E1, E2.
  - intros E. now rewrite (lowest_unique f g Lf Lg E).
Qed.
Print Assumptions C41_equal.
Theorem C41_equal_int : forall f n, lowest f -> fr_eq_int f n = true <-> fval f = zq n.
Proof.
  intros f n Lf. assert (Ln : lowest (Frac n 1)) by (split; cbn; [lia|apply Z.gcd_1_r]).
  assert (En : fval (Frac n 1) = zq n) by (unfold fval; cbn [numerator denominator]; rewrite zq_1; field; intros X; discriminate X).
  rewrite <- En. exact (C41_equal f (Frac n 1) Lf Ln).
Qed.
Print Assumptions C41_equal_int.
Theorem C41_truncate : forall f, lowest f -> forall z, (0 <= numerator f)%Z ->
  (fr_ssize f = z <-> (zq z <= fval f /\ fval f < zq z + 1)%Qc).
Proof.
  intros [a b] [Hb _] z Ha. cbn [numerator denominator] in *. unfold fr_ssize, fval. cbn [numerator denominator].
  rewrite Z.quot_div_nonneg by lia. set (q := (zq a / zq b)%Qc).
  assert (E : (q * zq b = zq a)%Qc) by (symmetry; apply frac_same, zq_neq0; lia). clearbody q.
  assert (B : (0 < zq b)%Qc) by (rewrite <- zq_0; now apply zq_lt).
  assert (L : forall w, (zq w <= q)%Qc <-> (w * b <= a)%Z).
  { intros w. rewrite <- zq_le, <- zq_mult, <- E. split; intros H.
    - clear E. qnra.
    - destruct (Qclt_le_dec q (zq w)) as [T|T]; [exfalso; clear E; qnra|exact T]. }
  assert (U : (q < zq z + 1)%Qc <-> (a < (z + 1) * b)%Z).
  { rewrite <- zq_1, zq_plus. specialize (L (z + 1)%Z). split; intros H.
    - apply Z.nle_gt. intros C. apply L in C. exact (Qcle_not_lt _ _ C H).
    - apply Qcnot_le_lt. intros C. apply L in C. lia. }
  rewrite L, U. pose proof (Z.div_mod a b ltac:(lia)). pose proof (Z.mod_pos_bound a b Hb). split.
  - intros <-. nia.
  - intros [H1 H2]. symmetry. apply Z.div_unique with (a - b * z)%Z; lia.
Qed.
Print Assumptions C41_truncate.

Example C41_example : exists f g, fr_new 6 (-4) = Ok f /\ f = Frac (-3) 2 /\ lowest f /\ fr_div_int f (-9) = Ok g /\ g = Frac 1 6.
Proof.
  eexists. eexists. split; [vm_compute; reflexivity|]. split; [reflexivity|]. split; [split; reflexivity|]. split; vm_compute; reflexivity.
Qed.

(** C46: whatever is asked, in any order and however often, of a constant with elements [l]. *)
Theorem C46_statistics : forall l qs, exists ans c, c_history qs (Const l None) = Ok (ans, c) /\ Forall2 (good_answer l) qs ans.
Proof.
  intros l qs. assert (I : c_inv l (Const l None)) by (split; [reflexivity|discriminate]). revert I. generalize (Const l None) as c.
  induction qs as [|q qs IH]; intros c I; cbn [c_history].
  - exists [], c. split; [reflexivity|constructor].
  - destruct (ask_ok l c q I) as (a & c' & -> & I' & G). cbn [rbind]. destruct (IH c' I') as (ans & c2 & -> & F). cbn [rbind].
    exists (a :: ans), c2. split; [reflexivity|]. now constructor.
Qed.
Print Assumptions C46_statistics.

Example C46_example : exists c, c_history [QMin; QLogical; QMax; QIntegral] (Const [zq 2; zq (-1); zq 3 / zq 2]%Qc None) =
  Ok ([ANum (zq (-1)); ABool false; ANum (zq 2); ABool false], c).
Proof. eexists. vm_compute. reflexivity. Qed.
