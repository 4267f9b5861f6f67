From Coq Require Import Znumtheory.
From Verif Require Import Base SliceModel Num ArithModel ArithSpec.

Lemma quot_cases n d : (0 < d)%Z -> Z.quot n d = if (0 <=? n)%Z then (n / d)%Z else (- (- n / d))%Z.
Proof.
  intros D. destruct (Z.leb_spec 0 n).
  - apply Z.quot_div_nonneg; lia.
  - replace n with (- - n)%Z at 1 by lia. rewrite Z.quot_opp_l by lia. rewrite Z.quot_div_nonneg by lia. reflexivity.
Qed.

Lemma qtrunc_nonneg q : (0 <= q)%Qc -> (zq (qtrunc q) <= q)%Qc /\ (q < zq (qtrunc q) + 1)%Qc /\ (0 <= qtrunc q)%Z.
Proof.
  intros H. apply qc_le in H. unfold qtrunc. rewrite quot_cases by apply Pos2Z.is_pos.
  assert (N : (0 <= Qnum (this q))%Z).
  { assert (H0 : (0 <= this q)%Q) by exact H. clear H. rename H0 into H. destruct (this q) as [a b]. unfold Qle in H. cbn [Qnum Qden] in *. lia. }
  rewrite (proj2 (Z.leb_le _ _) N). rewrite qc_le, qc_lt, this_plus, this_zq, this_1.
  change (Qnum (this q) / Zpos (Qden (this q)))%Z with (Qfloor (Qmake (Qnum (this q)) (Qden (this q)))).
  replace (Qmake (Qnum (this q)) (Qden (this q))) with (this q) by (now destruct (this q)).
  pose proof (Qfloor_le (this q)). pose proof (Qlt_floor (this q)) as L. rewrite inject_Z_plus in L.
  repeat split; auto. change 0%Z with (Qfloor (inject_Z 0)). apply Qfloor_resp_le. exact H.
Qed.

Lemma qtrunc_opp q : qtrunc (- q)%Qc = (- qtrunc q)%Z.
Proof.
  unfold qtrunc. assert (E : this (- q)%Qc = (- this q)%Q).
  { destruct q as [q C]. Local Transparent Qcopp. unfold Qcopp, Q2Qc. cbn [this]. rewrite Qred_opp. now rewrite C. Local Opaque Qcopp. }
  rewrite E. destruct (this q) as [n d]. unfold Qopp. cbn [Qnum Qden]. apply Z.quot_opp_l. lia.
Qed.

Lemma qtrunc_zq z : qtrunc (zq z) = z.
Proof.
  assert (P : forall z, (0 <= z)%Z -> qtrunc (zq z) = z).
  { intros y Y. destruct (qtrunc_nonneg (zq y)) as (A & B & C).
    - rewrite <- zq_0. now apply zq_le.
    - rewrite <- zq_1, zq_plus in B. apply (proj1 (zq_le _ _)) in A. apply (proj1 (zq_lt _ _)) in B. lia. }
  destruct (Z.leb_spec 0 z) as [H|H]; auto. assert (E : qtrunc (zq (- - z)) = (- - z)%Z) by (rewrite <- (zq_opp (- z)), qtrunc_opp, P; lia).
  now rewrite Z.opp_involutive in E.
Qed.

Lemma is_integer_spec x : is_integer x = true <-> is_int x.
Proof.
  unfold is_integer. destruct (qeqb_spec (x - zq (qtrunc x))%Qc 0) as [E|E]; split; auto; try discriminate.
  - intros _. exists (qtrunc x). qlra.
  - intros [z ->]. exfalso. apply E. clear E. rewrite qtrunc_zq. qlra.
Qed.

(** * Fractions *)
Lemma schk_ok z : (SMIN <= z <= SMAX)%Z -> schk z = Ok z.
Proof. intros H. unfold schk. destruct (Z.leb_spec SMIN z), (Z.leb_spec z SMAX); cbn [andb]; auto; lia. Qed.
Lemma schk_inv z y : schk z = Ok y -> y = z /\ (SMIN <= z <= SMAX)%Z.
Proof. unfold schk. destruct (Z.leb_spec SMIN z), (Z.leb_spec z SMAX); cbn [andb]; try discriminate. intros E. split; [congruence|lia]. Qed.
Lemma schk_nothrow z : schk z <> Throw.
Proof. unfold schk. destruct (_ && _); discriminate. Qed.

Lemma rbind_nothrow {A} z (f : Z -> res A) : (forall y, f y <> Throw) -> rbind (schk z) f <> Throw.
Proof. intros H. pose proof (schk_nothrow z). destruct (schk z); cbn [rbind]; auto; discriminate. Qed.
Lemma reduce_nothrow f : reduce f <> Throw.
Proof.
  unfold reduce. do 2 (apply rbind_nothrow; intros ?).
  match goal with |- context [if ?c then rbind _ _ else _] => destruct c end; [|discriminate].
  do 2 (apply rbind_nothrow; intros ?). discriminate.
Qed.
Definition small (z : Z) : Prop := (- SMAX <= z <= SMAX)%Z.

Lemma reduce_ok n d : small n -> small d -> d <> 0%Z ->
  exists f, reduce (Frac n d) = Ok f /\ lowest f /\ (numerator f * d = n * denominator f)%Z /\
    small (numerator f) /\ small (denominator f).
Proof.
  unfold small. intros Hn Hd D0. unfold reduce. cbn [numerator denominator].
  rewrite !schk_ok by (unfold SMIN, SMAX in *; lia). cbn [rbind].
  rewrite Z.gcd_abs_l, Z.gcd_abs_r.
  set (g := Z.gcd n d). assert (G : (0 < g)%Z).
  { pose proof (Z.gcd_nonneg n d). assert (g <> 0)%Z; [|lia]. intros E. apply Z.gcd_eq_0 in E. lia. }
  destruct (Z.gcd_divide_l n d) as [a Ha]. destruct (Z.gcd_divide_r n d) as [b Hb]. fold g in Ha, Hb.
  assert (C : Z.gcd a b = 1%Z).
  { assert (H : (Z.gcd (a * g) (b * g) = g * Z.gcd a b)%Z).
    { rewrite Z.gcd_mul_mono_r_nonneg by lia. lia. }
    rewrite <- Ha, <- Hb in H. fold g in H. pose proof (Z.gcd_nonneg a b). nia. }
  assert (E : (if negb (g =? 1)%Z then Frac (Z.quot n g) (Z.quot d g) else Frac n d) = Frac a b).
  { destruct (Z.eqb_spec g 1) as [E1|E1]; cbn [negb].
    - rewrite Ha, Hb, E1. f_equal; lia.
    - rewrite Ha, Hb at 1. rewrite !Z.quot_mul by lia. reflexivity. }
  rewrite E. cbn [numerator denominator].
  assert (b <> 0)%Z by nia. assert (Z.abs a <= Z.abs n)%Z by nia. assert (Z.abs b <= Z.abs d)%Z by nia.
  destruct (Z.ltb_spec b 0).
  - rewrite !schk_ok by (unfold SMIN, SMAX in *; lia). cbn [rbind]. eexists. split; [reflexivity|]. unfold lowest. cbn [numerator denominator].
    split; [split; [lia|]|split; [nia|lia]].
    replace (a * -1)%Z with (- a)%Z by lia. replace (b * -1)%Z with (- b)%Z by lia. now rewrite Z.gcd_opp_l, Z.gcd_opp_r.
  - eexists. split; [reflexivity|]. unfold lowest. cbn [numerator denominator]. split; [split; [lia|exact C]|split; [nia|lia]].
Qed.

Lemma reduce_small f g : reduce f = Ok g -> small (numerator f) /\ small (denominator f).
Proof.
  unfold reduce, small. destruct (schk (Z.abs (numerator f))) eqn:A; cbn [rbind]; try discriminate.
  destruct (schk (Z.abs (denominator f))) eqn:B; cbn [rbind]; try discriminate. intros _.
  apply schk_inv in A. apply schk_inv in B. lia.
Qed.


Lemma zq_neq0 d : d <> 0%Z -> zq d <> 0%Qc.
Proof. intros H E. rewrite <- zq_0 in E. now apply zq_inj in E. Qed.

Lemma frac_eq a b c d : b <> 0%Z -> d <> 0%Z -> (zq a / zq b = zq c / zq d)%Qc <-> (a * d = c * b)%Z.
Proof.
  intros B D. apply zq_neq0 in B as B'. apply zq_neq0 in D as D'. split.
  - intros H. apply zq_inj. rewrite <- !zq_mult.
    assert (E1 : (zq a = zq a / zq b * zq b)%Qc) by (now field).
    rewrite E1, H. now field.
  - intros H. assert (E : (zq a * zq d = zq c * zq b)%Qc) by (rewrite !zq_mult; now f_equal).
    assert (E1 : (zq a / zq b = zq a * zq d / (zq b * zq d))%Qc) by (now field).
    rewrite E1, E. now field.
Qed.

Lemma lowest_unique f g : lowest f -> lowest g -> fval f = fval g -> f = g.
Proof.
  destruct f as [a b], g as [c d]. unfold lowest, fval. cbn [numerator denominator]. intros [B Gf] [D Gg] E.
  apply frac_eq in E; try lia.
  assert (b | d)%Z.
  { apply Gauss with a; [exists c; lia|]. apply Zgcd_1_rel_prime. now rewrite Z.gcd_comm. }
  assert (d | b)%Z.
  { apply Gauss with c; [exists a; lia|]. apply Zgcd_1_rel_prime. now rewrite Z.gcd_comm. }
  assert (b = d) by (apply Z.divide_antisym_nonneg; lia || assumption). subst d. f_equal. nia.
Qed.

(** * Constants *)
Lemma range_min_spec l : forall x, In (range_min x l) (x :: l) /\ Forall (fun y => range_min x l <= y)%Qc (x :: l).
Proof.
  unfold range_min. induction l as [|y l IH]; intros x; cbn [fold_left].
  - split; [left; reflexivity|]. constructor; [apply Qcle_refl|constructor].
  - destruct (qltb_spec y x) as [L|L]; [destruct (IH y) as [I F]|destruct (IH x) as [I F]]; apply Forall_cons_iff in F as [F0 F]; cbn beta in F0.
    + split; [destruct I as [I|I]; [right; left|right; right]; exact I|].
      constructor; [|constructor; assumption]. eapply Qcle_trans; [exact F0|apply Qclt_le_weak; exact L].
    + split; [destruct I as [I|I]; [left|right; right]; exact I|].
      constructor; [exact F0|constructor; [|exact F]]. eapply Qcle_trans; [exact F0|apply Qcnot_lt_le; exact L].
Qed.
Lemma range_max_spec l : forall x, In (range_max x l) (x :: l) /\ Forall (fun y => y <= range_max x l)%Qc (x :: l).
Proof.
  unfold range_max. induction l as [|y l IH]; intros x; cbn [fold_left].
  - split; [left; reflexivity|]. constructor; [apply Qcle_refl|constructor].
  - destruct (qltb_spec x y) as [L|L]; [destruct (IH y) as [I F]|destruct (IH x) as [I F]]; apply Forall_cons_iff in F as [F0 F]; cbn beta in F0.
    + split; [destruct I as [I|I]; [right; left|right; right]; exact I|].
      constructor; [|constructor; assumption]. eapply Qcle_trans; [apply Qclt_le_weak; exact L|exact F0].
    + split; [destruct I as [I|I]; [left|right; right]; exact I|].
      constructor; [exact F0|constructor; [|exact F]]. eapply Qcle_trans; [apply Qcnot_lt_le; exact L|exact F0].
Qed.

Definition c_inv (l : list Qc) (c : constant) : Prop :=
  c_buf c = l /\ forall s, c_cache c = Some s -> buffer_stats l = Ok s.

Lemma query_ok {A} empty one get l c : c_inv l c ->
  exists (a : A) c', c_query empty one get c = Ok (a, c') /\ c_inv l c' /\
    match l with [] => a = empty | [x] => a = one x | _ => exists s, buffer_stats l = Ok s /\ a = get s end.
Proof.
  intros [B C]. unfold c_query. rewrite B. destruct l as [|x [|y l]].
  - eexists. eexists. split; [reflexivity|]. split; [split; assumption|reflexivity].
  - eexists. eexists. split; [reflexivity|]. split; [split; assumption|reflexivity].
  - destruct (c_cache c) as [s|] eqn:E.
    + eexists. eexists. split; [reflexivity|]. split; [split; [assumption|now rewrite E]|]. eauto.
    + destruct (buffer_stats (x :: y :: l)) as [s| |] eqn:F; cbn [buffer_stats] in F; try discriminate F. cbn [rbind].
      eexists. eexists. split; [reflexivity|]. split; [|eauto]. split; [reflexivity|]. cbn [c_cache]. intros s' E'.
      assert (s' = s) by congruence. now subst.
Qed.

Lemma stats_inv x l s : buffer_stats (x :: l) = Ok s -> s = BStats (forallb is_integer (x :: l)) (range_min x l) (range_max x l).
Proof. unfold buffer_stats. congruence. Qed.
Lemma forallb_int l : forallb is_integer l = true <-> Forall is_int l.
Proof. rewrite forallb_forall, Forall_forall. split; intros H x I; apply is_integer_spec; auto. Qed.

Lemma integral_ok l c : c_inv l c -> exists b c', c_integral c = Ok (b, c') /\ c_inv l c' /\ (b = true <-> Forall is_int l).
Proof.
  intros H. destruct (query_ok true is_integer st_integral l c H) as (b & c' & E & I & M). exists b, c'. split; [exact E|]. split; [exact I|].
  destruct l as [|x [|y l]].
  - subst. split; auto.
  - subst. rewrite is_integer_spec. split; [now repeat constructor|]. now inversion 1.
  - destruct M as (s & F & ->). apply stats_inv in F. subst s. cbn [st_integral]. apply forallb_int.
Qed.
Lemma min_ok l c : c_inv l c -> exists m c', c_min c = Ok (m, c') /\ c_inv l c' /\
  ((l = [] -> m = zq 0) /\ (l <> [] -> In m l /\ forall x, In x l -> (m <= x)%Qc)).
Proof.
  intros H. destruct (query_ok 0%Qc (fun x => x) st_min l c H) as (m & c' & E & I & M). exists m, c'. split; [exact E|]. split; [exact I|].
  destruct l as [|x [|y l]].
  - subst. rewrite zq_0. split; [reflexivity|]. intros N. now contradiction N.
  - subst. split; [discriminate|]. intros _. split; [now left|]. intros z [<- |[]]. apply Qcle_refl.
  - destruct M as (s & F & ->). apply stats_inv in F. subst s. cbn [st_min]. split; [discriminate|]. intros _. destruct (range_min_spec (y :: l) x) as [J K]. split; [exact J|].
    rewrite Forall_forall in K. exact K.
Qed.
Lemma max_ok l c : c_inv l c -> exists m c', c_max c = Ok (m, c') /\ c_inv l c' /\
  ((l = [] -> m = zq 0) /\ (l <> [] -> In m l /\ forall x, In x l -> (x <= m)%Qc)).
Proof.
  intros H. destruct (query_ok 0%Qc (fun x => x) st_max l c H) as (m & c' & E & I & M). exists m, c'. split; [exact E|]. split; [exact I|].
  destruct l as [|x [|y l]].
  - subst. rewrite zq_0. split; [reflexivity|]. intros N. now contradiction N.
  - subst. split; [discriminate|]. intros _. split; [now left|]. intros z [<- |[]]. apply Qcle_refl.
  - destruct M as (s & F & ->). apply stats_inv in F. subst s. cbn [st_max]. split; [discriminate|]. intros _. destruct (range_max_spec (y :: l) x) as [J K]. split; [exact J|].
    rewrite Forall_forall in K. exact K.
Qed.

Lemma logical_ok l c : c_inv l c -> exists b c', c_logical c = Ok (b, c') /\ c_inv l c' /\
  (b = true <-> Forall (fun x => x = zq 0 \/ x = zq 1) l).
Proof.
  intros H. unfold c_logical. destruct (integral_ok l c H) as (i & c1 & -> & H1 & I). cbn [rbind].
  assert (Z : Forall (fun x => x = zq 0 \/ x = zq 1) l -> i = true /\ forall x, In x l -> (zq 0 <= x /\ x <= zq 1)%Qc).
  { intros F. split.
    - apply I. eapply Forall_impl; [|exact F]. cbn. intros x [-> | ->]; eexists; reflexivity.
    - rewrite Forall_forall in F. intros x J. destruct (F x J) as [-> | ->]; split; apply zq_le; lia. }
  destruct i.
  2:{ exists false, c1. split; [reflexivity|]. split; [exact H1|]. split; [discriminate|]. intros F. now destruct (Z F). }
  destruct (min_ok l c1 H1) as (mn & c2 & -> & H2 & M0 & M1). cbn [rbind].
  destruct (qleb_spec 0 mn) as [L|L].
  2:{ exists false, c2. split; [reflexivity|]. split; [exact H2|]. split; [discriminate|]. intros F. destruct (Z F) as [_ Z']. exfalso. apply L.
      rewrite <- zq_0. destruct l as [|x l]; [rewrite M0 by reflexivity; apply Qcle_refl|]. apply Z', M1. discriminate. }
  destruct (max_ok l c2 H2) as (mx & c3 & -> & H3 & X0 & X1). cbn [rbind].
  eexists. eexists. split; [reflexivity|]. split; [exact H3|].
  destruct (qleb_spec mx 1) as [G|G].
  - split; [intros _|reflexivity]. apply Forall_forall. intros x J.
    assert (N : l <> []) by (intros ->; destruct J). destruct (M1 N) as [_ A]. destruct (X1 N) as [_ B].
    specialize (A x J). specialize (B x J). pose proof (proj1 I eq_refl) as F. rewrite Forall_forall in F. destruct (F x J) as [z ->].
    assert (P : (zq 0 <= zq z)%Qc) by (rewrite zq_0; eapply Qcle_trans; eassumption).
    assert (Q : (zq z <= zq 1)%Qc) by (rewrite zq_1; eapply Qcle_trans; eassumption).
    apply (proj1 (zq_le _ _)) in P. apply (proj1 (zq_le _ _)) in Q. assert (z = 0 \/ z = 1)%Z as [-> | ->] by lia; auto.
  - split; [discriminate|]. intros F. destruct (Z F) as [_ Z']. exfalso. apply G. rewrite <- zq_1.
    destruct l as [|x l]; [rewrite X0 by reflexivity; apply zq_le; lia|]. apply Z', X1. discriminate.
Qed.

Lemma ask_ok l c q : c_inv l c -> exists a c', c_ask q c = Ok (a, c') /\ c_inv l c' /\ good_answer l q a.
Proof.
  intros H. destruct q; cbn [c_ask].
  - destruct (integral_ok l c H) as (b & c' & -> & I & G). exists (ABool b), c'. auto.
  - destruct (min_ok l c H) as (b & c' & -> & I & G). exists (ANum b), c'. auto.
  - destruct (max_ok l c H) as (b & c' & -> & I & G). exists (ANum b), c'. auto.
  - destruct (logical_ok l c H) as (b & c' & -> & I & G). exists (ABool b), c'. auto.
Qed.

(** * Modulus *)
Lemma frac_same x y : y <> 0%Qc -> (x = x / y * y)%Qc.
Proof. intros H. now field. Qed.

Lemma modulus_spec x y : y <> 0%Qc -> floored_remainder x y (modulus x y).
Proof.
  intros Y. unfold modulus. destruct (qeqb_spec y 0) as [E|_]; [contradiction|].
  unfold fmod, signbit. set (t := (x / y)%Qc). assert (X : x = (t * y)%Qc) by now apply frac_same. clearbody t. subst x.
  assert (S : (0 < y \/ y < 0)%Qc).
  { destruct (Qc_dec y 0) as [[H|H]|H]; auto. contradiction. }
  clear Y.
  assert (P : (0 <= t -> floored_remainder (t * y) y (t * y - zq (qtrunc t) * y))%Qc).
  { intros T. destruct (qtrunc_nonneg t T) as (A & B & _). split; [exists (qtrunc t); ring|].
    set (u := zq (qtrunc t)) in *. clearbody u. split; intros H; split; qnra. }
  assert (N : (t < 0 -> floored_remainder (t * y) y (if qeqb (t * y - zq (qtrunc t) * y) 0 then t * y - zq (qtrunc t) * y else t * y - zq (qtrunc t) * y + y))%Qc).
  { intros T. destruct (qtrunc_nonneg (- t)%Qc) as (A & B & _); [qlra|]. rewrite qtrunc_opp, <- zq_opp in A, B.
    destruct (qeqb_spec (t * y - zq (qtrunc t) * y)%Qc 0) as [E|E].
    - split; [exists (qtrunc t); ring|]. rewrite E. split; intros H; split; try assumption; apply Qcle_refl.
    - split.
      + exists (qtrunc t - 1)%Z. rewrite <- zq_minus, zq_1. ring.
      + set (u := zq (qtrunc t)) in *. clearbody u.
        assert (t <> u) by (intros ->; apply E; ring). clear E.
        assert (t < u)%Qc by (destruct (Qc_dec t u) as [[?|?]|?]; [assumption|exfalso; qlra|contradiction]). clear H. clear S P.
        split; intros H; split; qnra. }
  destruct (qltb_spec (t * y) 0) as [L|L], (qltb_spec y 0) as [M|M]; cbn [Bool.eqb negb andb].
  - apply P. clear P N. qnra.
  - assert (t < 0)%Qc by (clear P N; destruct S as [S|S]; [qnra|exfalso; qlra]).
    specialize (N H). destruct (qeqb _ 0); cbn [negb]; exact N.
  - destruct (Qc_dec t 0) as [[H|H]|H].
    + specialize (N H). destruct (qeqb _ 0); cbn [negb]; exact N.
    + exfalso. clear P N. qnra.
    + subst t. assert (Z : (0 * y - zq (qtrunc 0) * y = 0)%Qc).
      { assert (Z0 : qtrunc 0 = 0%Z) by reflexivity. rewrite Z0, zq_0. ring. }
      destruct (qeqb_spec (0 * y - zq (qtrunc 0) * y)%Qc 0) as [_|NZ]; [|contradiction]. cbn [negb]. apply P. apply Qcle_refl.
  - apply P. clear N P. destruct S as [S|S]; [|contradiction]. destruct (Qclt_le_dec t 0) as [T|T]; [exfalso; qnra|exact T].
Qed.

Lemma floored_unique x y r : y <> 0%Qc -> floored_remainder x y r -> (r = x - y * qfloor (x / y))%Qc.
Proof.
  intros Y [[q E] [P N]]. Local Transparent qfloor. unfold qfloor. Local Opaque qfloor.
  set (t := (x / y)%Qc). assert (X : x = (t * y)%Qc) by now apply frac_same. clearbody t.
  assert (S : (0 < y \/ y < 0)%Qc).
  { destruct (Qc_dec y 0) as [[H|H]|H]; auto. contradiction. }
  assert (F : Qfloor t = q).
  { apply Qfloor_unique.
    - rewrite <- this_zq. apply qc_le. destruct S as [S|S]; [destruct (P S)|destruct (N S)]; clear P N Y; subst x;
      (destruct (Qclt_le_dec t (zq q)) as [T|T]; [exfalso; qnra|exact T]).
    - rewrite <- this_zq. apply qc_lt. rewrite <- zq_plus, zq_1.
      destruct S as [S|S]; [destruct (P S)|destruct (N S)]; clear P N Y; subst x;
      (destruct (Qclt_le_dec t (zq q + 1)%Qc) as [T|T]; [exact T|exfalso; qnra]). }
  rewrite F, E. ring.
Qed.
