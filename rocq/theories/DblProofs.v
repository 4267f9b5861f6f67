(** Sums, differences, products and exact quotients of whole numbers are exact. *)
From Coq.Floats Require Import SpecFloat.
From Coq Require Import Lia ZArith Bool.
From Verif Require Import Base DblSpec.
Local Open Scope Z_scope.

Lemma digits_log p : Zpos (digits2_pos p) = Z.log2 (Zpos p) + 1.
Proof.
  induction p as [p IH|p IH|]; [| |reflexivity]; cbn [digits2_pos]; rewrite Pos2Z.inj_succ, IH.
  - change (Zpos p~1) with (2 * Zpos p + 1). rewrite Z.log2_succ_double by lia. lia.
  - change (Zpos p~0) with (2 * Zpos p). rewrite Z.log2_double by lia. lia.
Qed.
Lemma log_pow z k : 0 < z -> 0 <= k -> Z.log2 (z * 2 ^ k) = Z.log2 z + k.
Proof. intros. rewrite Z.log2_mul_pow2 by lia. lia. Qed.
Lemma log_lt z : 0 < z -> z < 2 ^ 53 -> 0 <= Z.log2 z <= 52.
Proof. intros H L. split; [apply Z.log2_nonneg|]. pose proof (proj1 (Z.log2_lt_pow2 z 53 H) L). lia. Qed.

Lemma nat_iter_add {X} (f : X -> X) m n x : Nat.iter (m + n) f x = Nat.iter m f (Nat.iter n f x).
Proof. induction m as [|m IH]; [reflexivity|]. cbn [Nat.add]. unfold Nat.iter in *. cbn [nat_rect]. now rewrite IH. Qed.
Lemma iter_app {X} (f : X -> X) p q x : SpecFloat.iter_pos f (p + q) x = SpecFloat.iter_pos f q (SpecFloat.iter_pos f p x).
Proof.
  assert (N : forall r y, SpecFloat.iter_pos f r y = Nat.iter (Pos.to_nat r) f y).
  { induction r as [r IH|r IH|]; intros y; cbn [SpecFloat.iter_pos].
    - rewrite !IH. replace (Pos.to_nat r~1) with (Pos.to_nat r + (Pos.to_nat r + 1))%nat by lia. rewrite !nat_iter_add. reflexivity.
    - rewrite !IH. replace (Pos.to_nat r~0) with (Pos.to_nat r + Pos.to_nat r)%nat by lia. now rewrite nat_iter_add.
    - reflexivity. }
  rewrite !N, Pos2Nat.inj_add, Nat.add_comm. apply nat_iter_add.
Qed.
(** Shifting zeros out. *)
Lemma shr_exact p : forall k, 0 < k -> SpecFloat.iter_pos shr_1 p (Build_shr_record (k * 2 ^ Zpos p) false false) = Build_shr_record k false false.
Proof.
  induction p as [|p IH] using Pos.peano_ind; intros k Hk.
  - destruct k as [|k|k]; try lia. cbn [SpecFloat.iter_pos]. replace (Zpos k * 2 ^ 1) with (Zpos k~0) by lia. reflexivity.
  - rewrite <- Pos.add_1_r, iter_app. replace (k * 2 ^ Zpos (p + 1)) with ((k * 2) * 2 ^ Zpos p).
    + rewrite IH by lia. cbn [SpecFloat.iter_pos]. destruct k as [|k|k]; try lia. replace (Zpos k * 2) with (Zpos k~0) by lia. reflexivity.
    + rewrite Pos2Z.inj_add, Z.pow_add_r by lia. lia.
Qed.

Lemma fexp_small d : -1020 <= d - 53 -> fexp 53 1024 d = d - 53.
Proof. intros. unfold fexp, emin. lia. Qed.

(** The double of a whole number. *)
Definition mant (z : Z) : positive := Z.to_pos (z * 2 ^ (52 - Z.log2 z)).
Definition expo (z : Z) : Z := Z.log2 z - 52.
Lemma mant_z z : 0 < z -> z < 2 ^ 53 -> Zpos (mant z) = z * 2 ^ (52 - Z.log2 z).
Proof. intros H L. unfold mant. apply Z2Pos.id. pose proof (log_lt z H L). apply Z.mul_pos_pos; [lia|]. apply Z.pow_pos_nonneg; lia. Qed.

Lemma shr_none m e : 0 < m -> -1000 <= e -> Z.log2 m = 52 ->
  shr_fexp 53 1024 m e loc_Exact = (Build_shr_record m false false, e).
Proof.
  intros H B L. unfold shr_fexp. destruct m as [|p|p]; try lia. cbn [Zdigits2]. rewrite digits_log, L. rewrite fexp_small by lia.
  replace (52 + 1 + e - 53 - e) with 0 by lia. reflexivity.
Qed.
Lemma round_whole s m e z : 0 < z -> z < 2 ^ 53 -> -900 <= e -> e <= expo z -> Zpos m = z * 2 ^ (- e) ->
  binary_round_aux 53 1024 s (Zpos m) e loc_Exact = S754_finite s (mant z) (expo z).
Proof.
  intros H L B E Em. pose proof (log_lt z H L) as Lz. unfold expo in *.
  assert (Lm : Z.log2 (Zpos m) = Z.log2 z - e) by (rewrite Em, log_pow by lia; lia).
  unfold binary_round_aux.
  assert (S1 : shr_fexp 53 1024 (Zpos m) e loc_Exact = (Build_shr_record (Zpos (mant z)) false false, Z.log2 z - 52)).
  { unfold shr_fexp. cbn [Zdigits2 shr_record_of_loc]. rewrite digits_log, Lm. rewrite fexp_small by lia.
    replace (Z.log2 z - e + 1 + e - 53 - e) with (Z.log2 z - 52 - e) by lia. unfold shr. destruct (Z.log2 z - 52 - e) as [|p|p] eqn:Ep; try lia.
    - f_equal; [|lia]. f_equal. rewrite mant_z by assumption. rewrite Em. f_equal. f_equal. lia.
    - f_equal; [|lia]. replace (Zpos m) with (Zpos (mant z) * 2 ^ Zpos p); [apply shr_exact; lia|].
      rewrite mant_z, Em by assumption. rewrite <- Z.mul_assoc, <- Z.pow_add_r by lia. f_equal. f_equal. lia. }
  rewrite S1. cbn [shr_m loc_of_shr_record round_nearest_even].
  assert (Lm2 : Z.log2 (Zpos (mant z)) = 52) by (rewrite mant_z, log_pow by lia; lia).
  rewrite shr_none by lia. cbn [shr_m]. replace (Z.leb (Z.log2 z - 52) (1024 - 53)) with true by (symmetry; apply Z.leb_le; lia). reflexivity.
Qed.
Lemma shift_mul d m : Zpos (shift_pos d m) = Zpos m * 2 ^ Zpos d.
Proof. rewrite shift_pos_correct, Zpower_pos_nat, Zpower_nat_Z, positive_nat_Z. lia. Qed.
Lemma align_mul m e e' : e' <= e -> Zpos (fst (shl_align m e e')) = Zpos m * 2 ^ (e - e') /\ snd (shl_align m e e') = e'.
Proof.
  intros H. unfold shl_align. destruct (e' - e) as [|p|p] eqn:E; try lia; cbn [fst snd].
  - replace (e - e') with 0 by lia. lia.
  - rewrite shift_mul. replace (e - e') with (Zpos p) by lia. auto.
Qed.
Lemma norm_whole z e : z <> 0 -> small z -> -800 <= e <= 0 -> 
  binary_normalize 53 1024 (z * 2 ^ (- e)) e false = S754_finite (z <? 0) (mant (Z.abs z)) (expo (Z.abs z)).
Proof.
  intros H L B. unfold small in L. pose proof (log_lt (Z.abs z) ltac:(lia) L) as Lz.
  assert (P : 0 < 2 ^ (- e)) by (apply Z.pow_pos_nonneg; lia).
  assert (G : forall m s, Zpos m = Z.abs z * 2 ^ (- e) -> binary_round 53 1024 s m e = S754_finite s (mant (Z.abs z)) (expo (Z.abs z))).
  { intros m s Em. unfold binary_round. rewrite digits_log.
    assert (Lm : Z.log2 (Zpos m) = Z.log2 (Z.abs z) - e) by (rewrite Em, log_pow by lia; lia).
    rewrite Lm, fexp_small by lia. set (e1 := Z.log2 (Z.abs z) - e + 1 + e - 53). destruct (shl_align m e e1) as [m1 e2] eqn:Es.
    destruct (Z.le_gt_cases e1 e) as [C|C].
    - destruct (align_mul m e e1 C) as [A1 A2]. rewrite Es in A1, A2. cbn [fst snd] in A1, A2. subst e2. apply round_whole; unfold expo; try lia.
      rewrite A1, Em, <- Z.mul_assoc, <- Z.pow_add_r by lia. f_equal. f_equal. lia.
    - unfold shl_align in Es. destruct (e1 - e) eqn:Ee; try lia. injection Es as <- <-. apply round_whole; unfold expo; try lia. }
  destruct z as [|p|p]; [lia| |]; unfold binary_normalize.
  - cbn [Z.abs] in *. destruct (Zpos p * 2 ^ (- e)) as [|q|q] eqn:Eq; try lia. apply G. lia.
  - cbn [Z.abs] in *. destruct (Zneg p * 2 ^ (- e)) as [|q|q] eqn:Eq; try lia. apply G. lia.
Qed.

(** The only double of a whole number below the bound, zero aside. *)
Lemma whole_inv x z : whole x z -> small z -> z <> 0 ->
  x = S754_finite (z <? 0) (mant (Z.abs z)) (expo (Z.abs z)).
Proof.
  intros W L H. unfold small in L. pose proof (log_lt (Z.abs z) ltac:(lia) L) as Lz. destruct x as [s|s| |s m e]; cbn [whole] in W; try contradiction.
  destruct W as [V W]. cbn [valid_binary] in V. unfold bounded, canonical_mantissa in V. apply andb_true_iff in V. destruct V as [V1 V2].
  apply Zeq_bool_eq in V1. apply Z.leb_le in V2. rewrite digits_log in V1. unfold fexp, emin in V1.
  assert (P1 : 0 < 2 ^ Z.max e 0) by (apply Z.pow_pos_nonneg; lia). assert (P2 : 0 < 2 ^ Z.max (- e) 0) by (apply Z.pow_pos_nonneg; lia).
  assert (Sg : s = (z <? 0)) by (destruct s, (Z.ltb_spec z 0); try reflexivity; nia).
  assert (W' : Zpos m * 2 ^ Z.max e 0 = Z.abs z * 2 ^ Z.max (- e) 0) by (destruct s; nia).
  pose proof (f_equal Z.log2 W') as Q. rewrite !log_pow in Q by lia.
  assert (Em : Z.log2 (Zpos m) = 52) by lia. assert (Ee : e = expo (Z.abs z)) by (unfold expo; lia).
  subst s. f_equal; [|exact Ee]. apply Pos2Z.inj. rewrite mant_z by lia. replace (Z.max e 0) with 0 in W' by (unfold expo in Ee; lia).
  rewrite Z.pow_0_r, Z.mul_1_r in W'. rewrite W'. f_equal. f_equal. unfold expo in Ee. lia.
Qed.
Lemma whole_double z : small z -> z <> 0 -> whole (S754_finite (z <? 0) (mant (Z.abs z)) (expo (Z.abs z))) z.
Proof.
  intros L H. unfold small in L. pose proof (log_lt (Z.abs z) ltac:(lia) L) as Lz. cbn [whole]. 
  pose proof (mant_z (Z.abs z) ltac:(lia) L) as Em. assert (Lm : Z.log2 (Zpos (mant (Z.abs z))) = 52) by (rewrite Em, log_pow by lia; lia). split.
  - cbn [valid_binary]. unfold bounded, canonical_mantissa. apply andb_true_iff. split.
    + rewrite digits_log, Lm. unfold expo. rewrite fexp_small by lia. apply Zeq_is_eq_bool. lia.
    + apply Z.leb_le. unfold expo. lia.
  - unfold expo. replace (Z.max (Z.log2 (Z.abs z) - 52) 0) with 0 by lia. replace (Z.max (- (Z.log2 (Z.abs z) - 52)) 0) with (52 - Z.log2 (Z.abs z)) by lia.
    rewrite Em, Z.pow_0_r. destruct (Z.ltb_spec z 0); [replace (Z.abs z) with (- z) at 1 by lia|replace (Z.abs z) with z at 1 by lia]; lia.
Qed.
Lemma whole0 x : whole x 0 -> exists s, x = S754_zero s.
Proof.
  destruct x as [s|s| |s m e]; cbn [whole]; intros W; try contradiction; [eauto|]. destruct W as [_ W].
  assert (0 < 2 ^ Z.max e 0) by (apply Z.pow_pos_nonneg; lia). destruct s; nia.
Qed.

Lemma sgn_abs z k : (if z <? 0 then - (Z.abs z * k) else Z.abs z * k) = z * k.
Proof. destruct (Z.ltb_spec z 0); [rewrite Z.abs_neq by lia|rewrite Z.abs_eq by lia]; lia. Qed.
Lemma part z e : small z -> z <> 0 -> e <= expo (Z.abs z) ->
  cond_Zopp (z <? 0) (Zpos (fst (shl_align (mant (Z.abs z)) (expo (Z.abs z)) e))) = z * 2 ^ (- e).
Proof.
  intros L H E. unfold small in L. pose proof (log_lt (Z.abs z) ltac:(lia) L) as Lz. rewrite (proj1 (align_mul _ _ _ E)), mant_z by lia.
  rewrite <- Z.mul_assoc, <- Z.pow_add_r by (unfold expo in *; lia). replace (52 - Z.log2 (Z.abs z) + (expo (Z.abs z) - e)) with (- e) by (unfold expo; lia).
  unfold cond_Zopp. apply sgn_abs.
Qed.
Lemma expo_range z : small z -> z <> 0 -> -52 <= expo (Z.abs z) <= 0.
Proof. intros L H. unfold small in L. pose proof (log_lt (Z.abs z) ltac:(lia) L). unfold expo. lia. Qed.

Lemma add_whole x y a b : whole x a -> whole y b -> small a -> small b -> small (a + b) -> whole (SFadd 53 1024 x y) (a + b).
Proof.
  intros Wx Wy Sa Sb Sc. destruct (Z.eq_dec a 0) as [->|Na]; [|destruct (Z.eq_dec b 0) as [->|Nb]].
  - destruct (whole0 _ Wx) as [s ->]. rewrite Z.add_0_l. destruct y as [s'|s'| |s' m e]; cbn [whole] in Wy; try contradiction; cbn [SFadd]; [|exact Wy].
    subst b. now destruct (Bool.eqb s s').
  - destruct (whole0 _ Wy) as [s ->]. rewrite Z.add_0_r. rewrite (whole_inv _ _ Wx Sa Na). apply whole_double; assumption.
  - rewrite (whole_inv _ _ Wx Sa Na), (whole_inv _ _ Wy Sb Nb). cbn [SFadd]. pose proof (expo_range a Sa Na). pose proof (expo_range b Sb Nb).
    rewrite !part by (auto; lia). rewrite <- Z.mul_add_distr_r. destruct (Z.eq_dec (a + b) 0) as [E|E].
    + rewrite E. reflexivity.
    + rewrite norm_whole by (auto; lia). apply whole_double; assumption.
Qed.
Lemma sub_whole x y a b : whole x a -> whole y b -> small a -> small b -> small (a - b) -> whole (SFsub 53 1024 x y) (a - b).
Proof.
  intros Wx Wy Sa Sb Sc. destruct (Z.eq_dec a 0) as [->|Na]; [|destruct (Z.eq_dec b 0) as [->|Nb]].
  - destruct (whole0 _ Wx) as [s ->]. destruct y as [s'|s'| |s' m e]; cbn [whole] in Wy; try contradiction; cbn [SFsub].
    + subst b. now destruct (Bool.eqb s (negb s')).
    + destruct Wy as [V W]. split; [exact V|]. destruct s'; cbn [negb]; lia.
  - destruct (whole0 _ Wy) as [s ->]. rewrite Z.sub_0_r. rewrite (whole_inv _ _ Wx Sa Na). apply whole_double; assumption.
  - rewrite (whole_inv _ _ Wx Sa Na), (whole_inv _ _ Wy Sb Nb). cbn [SFsub]. pose proof (expo_range a Sa Na). pose proof (expo_range b Sb Nb).
    rewrite !part by (auto; lia). rewrite <- Z.mul_sub_distr_r. destruct (Z.eq_dec (a - b) 0) as [E|E].
    + rewrite E. reflexivity.
    + rewrite norm_whole by (auto; lia). apply whole_double; assumption.
Qed.
Lemma sgn_mul a b : a <> 0 -> b <> 0 -> xorb (a <? 0) (b <? 0) = (a * b <? 0).
Proof. intros. destruct (Z.ltb_spec a 0), (Z.ltb_spec b 0), (Z.ltb_spec (a * b) 0); cbn; try reflexivity; nia. Qed.
Lemma mul_whole x y a b : whole x a -> whole y b -> small a -> small b -> small (a * b) -> whole (SFmul 53 1024 x y) (a * b).
Proof.
  intros Wx Wy Sa Sb Sc. destruct (Z.eq_dec a 0) as [->|Na]; [|destruct (Z.eq_dec b 0) as [->|Nb]].
  - destruct (whole0 _ Wx) as [s ->]. destruct y as [s'|s'| |s' m e]; cbn [whole] in Wy; try contradiction; reflexivity.
  - destruct (whole0 _ Wy) as [s ->]. rewrite (whole_inv _ _ Wx Sa Na). cbn. lia.
  - rewrite (whole_inv _ _ Wx Sa Na), (whole_inv _ _ Wy Sb Nb). cbn [SFmul]. pose proof (expo_range a Sa Na) as Ea. pose proof (expo_range b Sb Nb) as Eb.
    assert (Nc : a * b <> 0) by nia. pose proof (expo_range (a * b) Sc Nc) as Ec. rewrite sgn_mul by assumption.
    rewrite round_whole with (z := Z.abs (a * b)); [apply whole_double; assumption|lia|exact Sc|lia| |].
    + unfold expo in *. rewrite Z.abs_mul. pose proof (Z.log2_mul_below (Z.abs a) (Z.abs b) ltac:(lia) ltac:(lia)). lia.
    + unfold small in *. rewrite Pos2Z.inj_mul, !mant_z by lia. rewrite Z.abs_mul. unfold expo in *.
      replace (- (Z.log2 (Z.abs a) - 52 + (Z.log2 (Z.abs b) - 52))) with ((52 - Z.log2 (Z.abs a)) + (52 - Z.log2 (Z.abs b))) by lia.
      rewrite Z.pow_add_r by lia. lia.
Qed.
Lemma div_whole x y a b : whole x (a * b) -> whole y b -> small (a * b) -> small a -> small b -> b <> 0 -> whole (SFdiv 53 1024 x y) a.
Proof.
  intros Wx Wy Sc Sa Sb Nb. destruct (Z.eq_dec a 0) as [->|Na].
  - destruct (whole0 _ Wx) as [s ->]. rewrite (whole_inv _ _ Wy Sb Nb). reflexivity.
  - assert (Nc : a * b <> 0) by nia. rewrite (whole_inv _ _ Wx Sc Nc), (whole_inv _ _ Wy Sb Nb). cbn [SFdiv].
    pose proof (expo_range _ Sc Nc) as Ec. pose proof (expo_range _ Sb Nb) as Eb. pose proof (expo_range _ Sa Na) as Ea. unfold expo in Ec, Eb, Ea.
    unfold SFdiv_core_binary. cbn [Zdigits2]. rewrite !digits_log. unfold small in *. rewrite !mant_z by lia. rewrite !log_pow by lia.
    replace (Z.log2 (Z.abs (a * b)) + (52 - Z.log2 (Z.abs (a * b))) + 1 + expo (Z.abs (a * b)) - (Z.log2 (Z.abs b) + (52 - Z.log2 (Z.abs b)) + 1 + expo (Z.abs b)))
      with (expo (Z.abs (a * b)) - expo (Z.abs b)) by lia.
    rewrite fexp_small by (unfold expo; lia). rewrite Z.min_l by lia.
    set (e := expo (Z.abs (a * b)) - expo (Z.abs b) - 53). replace (expo (Z.abs (a * b)) - expo (Z.abs b) - e) with 53 by (unfold e; lia).
    cbv zeta. rewrite Z.shiftl_mul_pow2 by lia.
    assert (Ed : Z.div_eucl (Z.abs (a * b) * 2 ^ (52 - Z.log2 (Z.abs (a * b))) * 2 ^ 53) (Z.abs b * 2 ^ (52 - Z.log2 (Z.abs b))) = (Z.abs a * 2 ^ (- e), 0)).
    { assert (Pb : 0 < Z.abs b * 2 ^ (52 - Z.log2 (Z.abs b))) by (apply Z.mul_pos_pos; [lia|apply Z.pow_pos_nonneg; lia]).
      assert (Em : Z.abs (a * b) * 2 ^ (52 - Z.log2 (Z.abs (a * b))) * 2 ^ 53 = Z.abs a * 2 ^ (- e) * (Z.abs b * 2 ^ (52 - Z.log2 (Z.abs b)))).
      { rewrite Z.abs_mul. rewrite <- Z.abs_mul at 1. rewrite Z.abs_mul. transitivity (Z.abs a * Z.abs b * (2 ^ (52 - Z.log2 (Z.abs a * Z.abs b)) * 2 ^ 53)); [lia|].
        transitivity (Z.abs a * Z.abs b * (2 ^ (- e) * 2 ^ (52 - Z.log2 (Z.abs b)))); [|lia]. f_equal.
        rewrite <- !Z.pow_add_r; unfold e, expo in *; rewrite ?Z.abs_mul in *; try lia. f_equal. lia. }
      pose proof (Z_div_mod_eq_full (Z.abs (a * b) * 2 ^ (52 - Z.log2 (Z.abs (a * b))) * 2 ^ 53) (Z.abs b * 2 ^ (52 - Z.log2 (Z.abs b)))) as D.
      pose proof (Z.div_mul (Z.abs a * 2 ^ (- e)) (Z.abs b * 2 ^ (52 - Z.log2 (Z.abs b))) ltac:(lia)) as D1. rewrite <- Em in D1.
      pose proof (Z_mod_mult (Z.abs a * 2 ^ (- e)) (Z.abs b * 2 ^ (52 - Z.log2 (Z.abs b)))) as D2. rewrite <- Em in D2.
      unfold Z.div, Z.modulo in D1, D2. destruct (Z.div_eucl _ _) as [q r]. congruence. }
    rewrite Ed. assert (El : forall n, new_location n 0 = loc_Exact) by (intros n; unfold new_location, new_location_even, new_location_odd; now destruct (Z.even n)).
    rewrite El. 
    assert (Pa : 0 < Z.abs a * 2 ^ (- e)) by (apply Z.mul_pos_pos; [lia|apply Z.pow_pos_nonneg; unfold e, expo; lia]).
    destruct (Z.abs a * 2 ^ (- e)) as [|m|m] eqn:Em; try lia.
    rewrite round_whole with (z := Z.abs a); [|lia|exact Sa|unfold e, expo; lia| |lia].
    + replace (xorb (a * b <? 0) (b <? 0)) with (a <? 0); [apply whole_double; assumption|]. rewrite <- sgn_mul by assumption. now destruct (a <? 0), (b <? 0).
    + unfold e, expo. rewrite Z.abs_mul. pose proof (Z.log2_mul_above (Z.abs a) (Z.abs b) ltac:(lia) ltac:(lia)). lia.
Qed.
Lemma norm0_whole z : small z -> whole (binary_normalize 53 1024 z 0 false) z.
Proof.
  intros L. destruct (Z.eq_dec z 0) as [->|N]; [reflexivity|]. pose proof (norm_whole z 0 N L ltac:(lia)) as E. rewrite Z.mul_1_r in E. rewrite E. apply whole_double; assumption.
Qed.
Lemma eqb_whole x y a b : whole x a -> whole y b -> small a -> small b -> SFeqb x y = (a =? b).
Proof.
  intros Wx Wy Sa Sb. destruct (Z.eq_dec a 0) as [->|Na].
  - destruct (whole0 _ Wx) as [s ->]. destruct (Z.eq_dec b 0) as [->|Nb].
    + destruct (whole0 _ Wy) as [s' ->]. reflexivity.
    + rewrite (whole_inv _ _ Wy Sb Nb). unfold SFeqb. cbn [SFcompare]. destruct (Z.eqb_spec 0 b); [congruence|]. now destruct (b <? 0).
  - rewrite (whole_inv _ _ Wx Sa Na). destruct (Z.eq_dec b 0) as [->|Nb].
    + destruct (whole0 _ Wy) as [s' ->]. unfold SFeqb. cbn [SFcompare]. destruct (Z.eqb_spec a 0); [congruence|]. now destruct (a <? 0).
    + rewrite (whole_inv _ _ Wy Sb Nb). unfold SFeqb. cbn [SFcompare].
      assert (X : forall s s' m m' e e', match (match s, s' with true, false => Lt | false, true => Gt | false, false => match e ?= e' with Lt => Lt | Gt => Gt | Eq => Pos.compare_cont Eq m m' end
                 | true, true => match e ?= e' with Lt => Gt | Gt => Lt | Eq => CompOpp (Pos.compare_cont Eq m m') end end) with Eq => true | _ => false end = true <-> S754_finite s m e = S754_finite s' m' e').
      { intros. change (Pos.compare_cont Eq m m') with (Pos.compare m m'). destruct s, s'; try (split; [discriminate|congruence]); destruct (Z.compare_spec e e'), (Pos.compare_spec m m'); cbn; subst; split; intros Q; try reflexivity; try discriminate; try (injection Q; intros; lia). }
      match goal with |- ?l = _ => destruct l eqn:E end; symmetry.
      * apply X in E. apply Z.eqb_eq. pose proof (whole_double a Sa Na) as W1. pose proof (whole_double b Sb Nb) as W2. rewrite E in W1.
        cbn [whole] in W1, W2. destruct W1 as [_ W1], W2 as [_ W2]. rewrite W1 in W2. apply Z.mul_reg_r in W2; [exact W2|]. apply Z.pow_nonzero; lia.
      * apply Z.eqb_neq. intros ->. pose proof (proj2 (X (b <? 0) (b <? 0) (mant (Z.abs b)) (mant (Z.abs b)) (expo (Z.abs b)) (expo (Z.abs b))) eq_refl) as Q.
        assert (false = true) by (rewrite <- E; exact Q). discriminate.
Qed.
