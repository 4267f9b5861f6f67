(** Exact numbers: the canonical rationals [Qc] stand for finite doubles wherever the code computes.
    Leibniz equality is numerical equality.  Rounding, infinities, NaN and -0.0 are not modelled. *)
From Coq Require Export QArith Qcanon Qround Lqa.
From Verif Require Import Base.
Global Close Scope Qc_scope.
Global Close Scope Q_scope.
Global Open Scope nat_scope.

Notation num := Qc (only parsing).

Definition zq (z : Z) : Qc := Q2Qc (inject_Z z).
Definition qeqb (x y : Qc) : bool := Qeq_bool x y.
Definition qleb (x y : Qc) : bool := Qle_bool x y.
Definition qltb (x y : Qc) : bool := negb (Qle_bool y x).
(** [std::min(a, b)] is [b < a ? b : a]; [std::max(a, b)] is [a < b ? b : a]. *)
Definition qmin (a b : Qc) : Qc := if qltb b a then b else a.
Definition qmax (a b : Qc) : Qc := if qltb a b then b else a.
Definition qabs (x : Qc) : Qc := if qltb x 0 then Qcopp x else x.

(** [std::round]: nearest integer, halves away from zero. *)
Definition zround (x : Qc) : Z :=
  if Qle_bool 0 x then Qfloor (x + (1 # 2))%Q else Qceiling (x - (1 # 2))%Q.
Definition qround (x : Qc) : Qc := zq (zround x).
(** [std::floor]. *)
Definition qfloor (x : Qc) : Qc := zq (Qfloor x).

Definition is_int (x : Qc) : Prop := exists z : Z, x = zq z.

(** C++ comparison results as numbers. *)
Definition b2q (b : bool) : Qc := if b then 1%Qc else 0%Qc.
(** C++ conversion of a double to bool. *)
Definition q2b (x : Qc) : bool := negb (qeqb x 0).

Lemma this_zq z : (this (zq z) == inject_Z z)%Q.
Proof. unfold zq, Q2Qc. cbn [this]. apply Qred_correct. Qed.
Lemma this_plus x y : (this (x + y)%Qc == (this x + this y)%Q)%Q.
Proof. unfold Qcplus, Q2Qc. cbn [this]. apply Qred_correct. Qed.
Lemma this_mult x y : (this (x * y)%Qc == (this x * this y)%Q)%Q.
Proof. unfold Qcmult, Q2Qc. cbn [this]. apply Qred_correct. Qed.
Lemma this_opp x : (this (- x)%Qc == (- this x)%Q)%Q.
Proof. unfold Qcopp, Q2Qc. cbn [this]. apply Qred_correct. Qed.
Lemma this_minus x y : (this (x - y)%Qc == (this x - this y)%Q)%Q.
Proof. unfold Qcminus. rewrite this_plus, this_opp. reflexivity. Qed.
Lemma this_inv x : (this (/ x)%Qc == (/ this x)%Q)%Q.
Proof. unfold Qcinv, Q2Qc. cbn [this]. apply Qred_correct. Qed.
Lemma this_div x y : (this (x / y)%Qc == (this x / this y)%Q)%Q.
Proof. unfold Qcdiv. rewrite this_mult, this_inv. reflexivity. Qed.
Lemma this_0 : (this 0%Qc == 0)%Q. Proof. reflexivity. Qed.
Lemma this_1 : (this 1%Qc == 1)%Q. Proof. reflexivity. Qed.

Lemma qc_eq x y : x = y <-> (this x == this y)%Q.
Proof. split; [intros ->; reflexivity|apply Qc_is_canon]. Qed.
Lemma qc_le x y : (x <= y)%Qc <-> (this x <= this y)%Q. Proof. reflexivity. Qed.
Lemma qc_lt x y : (x < y)%Qc <-> (this x < this y)%Q. Proof. reflexivity. Qed.

Lemma qeqb_spec x y : reflect (x = y) (qeqb x y).
Proof.
  unfold qeqb. destruct (Qeq_bool x y) eqn:E; constructor.
  - apply qc_eq. now apply Qeq_bool_eq.
  - intros ->. apply Qeq_bool_neq in E. apply E. reflexivity.
Qed.
Lemma qleb_spec x y : reflect (x <= y)%Qc (qleb x y).
Proof.
  unfold qleb. destruct (Qle_bool x y) eqn:E; constructor.
  - now apply Qle_bool_iff.
  - intros H. apply Qle_bool_iff in H. congruence.
Qed.
Lemma qltb_spec x y : reflect (x < y)%Qc (qltb x y).
Proof.
  unfold qltb. destruct (Qle_bool y x) eqn:E; constructor.
  - apply Qle_bool_iff in E. apply Qle_not_lt. exact E.
  - apply Qnot_le_lt. intros H. apply Qle_bool_iff in H. congruence.
Qed.

Lemma qeqb_refl x : qeqb x x = true.
Proof. destruct (qeqb_spec x x); congruence. Qed.

(** Linear / nonlinear arithmetic over [Qc]: move everything to [Q]. *)
Ltac qc_norm_in H :=
  repeat (rewrite ?this_plus, ?this_mult, ?this_minus, ?this_opp, ?this_0, ?this_1 in H).
Ltac qc_norm :=
  repeat (rewrite ?this_plus, ?this_mult, ?this_minus, ?this_opp, ?this_0, ?this_1).
Ltac qc2q :=
  repeat match goal with
  | H : ~ (@eq Qc _ _) |- _ => clear H
  | H : @eq Qc _ _ |- _ => apply qc_eq in H
  | H : (_ <= _)%Qc |- _ => apply (proj1 (qc_le _ _)) in H
  | H : (_ < _)%Qc |- _ => apply (proj1 (qc_lt _ _)) in H
  | H : ~ (_ <= _)%Qc |- _ => apply Qcnot_le_lt in H
  | H : ~ (_ < _)%Qc |- _ => apply Qcnot_lt_le in H
  | |- ~ (_ <= _)%Qc => let H := fresh in intros H
  | |- ~ (_ < _)%Qc => let H := fresh in intros H
  | |- @eq Qc _ _ => apply qc_eq
  | |- (_ <= _)%Qc => apply (proj2 (qc_le _ _))
  | |- (_ < _)%Qc => apply (proj2 (qc_lt _ _))
  end;
  repeat match goal with
  | H : (_ == _)%Q |- _ => progress qc_norm_in H
  | H : (_ <= _)%Q |- _ => progress qc_norm_in H
  | H : (_ < _)%Q |- _ => progress qc_norm_in H
  end; qc_norm.
Ltac qlra := qc2q; lra.
Ltac qnra := qc2q; nra.

Ltac qcase :=
  match goal with
  | |- context [qltb ?x ?y] => destruct (qltb_spec x y)
  | |- context [qleb ?x ?y] => destruct (qleb_spec x y)
  | |- context [qeqb ?x ?y] => destruct (qeqb_spec x y)
  end.

Lemma zq_inj a b : zq a = zq b -> a = b.
Proof. intros H. apply qc_eq in H. rewrite !this_zq in H. apply inject_Z_injective. exact H. Qed.
Lemma zq_le a b : (zq a <= zq b)%Qc <-> (a <= b)%Z.
Proof. rewrite qc_le, !this_zq, <- Zle_Qle. reflexivity. Qed.
Lemma zq_lt a b : (zq a < zq b)%Qc <-> (a < b)%Z.
Proof. rewrite qc_lt, !this_zq, <- Zlt_Qlt. reflexivity. Qed.
Lemma zq_plus a b : (zq a + zq b)%Qc = zq (a + b).
Proof. apply qc_eq. rewrite this_plus, !this_zq, inject_Z_plus. reflexivity. Qed.
Lemma zq_mult a b : (zq a * zq b)%Qc = zq (a * b).
Proof. apply qc_eq. rewrite this_mult, !this_zq, inject_Z_mult. reflexivity. Qed.
Lemma zq_opp a : (- zq a)%Qc = zq (- a).
Proof. apply qc_eq. rewrite this_opp, !this_zq, inject_Z_opp. reflexivity. Qed.
Lemma zq_minus a b : (zq a - zq b)%Qc = zq (a - b).
Proof. unfold Qcminus. rewrite zq_opp, zq_plus. f_equal. Qed.
Lemma zq_0 : zq 0 = 0%Qc. Proof. apply qc_eq. rewrite this_zq. reflexivity. Qed.
Lemma zq_1 : zq 1 = 1%Qc. Proof. apply qc_eq. rewrite this_zq. reflexivity. Qed.

Lemma Qfloor_le_iff (z : Z) (q : Q) : (inject_Z z <= q)%Q <-> (z <= Qfloor q)%Z.
Proof.
  split; intros H.
  - apply Qfloor_resp_le in H. now rewrite Qfloor_Z in H.
  - apply Qle_trans with (inject_Z (Qfloor q)); [now rewrite <- Zle_Qle|apply Qfloor_le].
Qed.

Lemma Qfloor_unique (z : Z) (q : Q) : (inject_Z z <= q)%Q -> (q < inject_Z (z + 1))%Q -> Qfloor q = z.
Proof.
  intros H1 H2. apply Qfloor_le_iff in H1.
  assert (inject_Z (Qfloor q) < inject_Z (z + 1))%Q.
  { eapply Qle_lt_trans; [apply Qfloor_le|exact H2]. }
  rewrite <- Zlt_Qlt in H. lia.
Qed.

(** [zround] is a nearest integer, at distance at most 1/2. *)
Lemma zround_close x : (inject_Z (zround x) - (1#2) <= this x /\ this x <= inject_Z (zround x) + (1#2))%Q.
Proof.
  unfold zround. destruct (Qle_bool 0 x) eqn:E.
  - pose proof (Qfloor_le (x + (1#2))) as H1. pose proof (Qlt_floor (x + (1#2))) as H2.
    rewrite inject_Z_plus in H2. change (inject_Z 1) with 1%Q in H2. split; lra.
  - pose proof (Qle_ceiling (x - (1#2))) as H1. pose proof (Qceiling_lt (x - (1#2))) as H2.
    replace (Qceiling (x - (1 # 2)) - 1)%Z with (Qceiling (x - (1 # 2)) + -(1))%Z in H2 by lia.
    rewrite inject_Z_plus, inject_Z_opp in H2. change (inject_Z 1) with 1%Q in H2. split; lra.
Qed.

Lemma zround_zq z : zround (zq z) = z.
Proof.
  destruct (zround_close (zq z)) as [H1 H2]. rewrite this_zq in H1, H2.
  assert (inject_Z (zround (zq z)) < inject_Z (z + 1))%Q.
  { rewrite inject_Z_plus. change (inject_Z 1) with 1%Q. lra. }
  assert (inject_Z (z - 1) < inject_Z (zround (zq z)))%Q.
  { unfold Z.sub. rewrite inject_Z_plus, inject_Z_opp. change (inject_Z 1) with 1%Q. lra. }
  rewrite <- Zlt_Qlt in H, H0. lia.
Qed.

Lemma qround_int x : qround x = x <-> is_int x.
Proof.
  unfold is_int, qround. split.
  - intros H. eauto.
  - intros [z ->]. now rewrite zround_zq.
Qed.

Lemma is_int_plus x y : is_int x -> is_int y -> is_int (x + y)%Qc.
Proof. intros [a ->] [b ->]. exists (a + b)%Z. apply zq_plus. Qed.
Lemma is_int_mult x y : is_int x -> is_int y -> is_int (x * y)%Qc.
Proof. intros [a ->] [b ->]. exists (a * b)%Z. apply zq_mult. Qed.
Lemma is_int_opp x : is_int x -> is_int (- x)%Qc.
Proof. intros [a ->]. exists (- a)%Z. apply zq_opp. Qed.
Lemma is_int_minus x y : is_int x -> is_int y -> is_int (x - y)%Qc.
Proof. intros [a ->] [b ->]. exists (a - b)%Z. apply zq_minus. Qed.

(** Keep tactics such as [injection] and [cbn] from opening rational arithmetic ([vm_compute] still
    computes). *)
Lemma qdiv_def (x y : num) : (x / y)%Qc = (x * / y)%Qc.
Proof. reflexivity. Qed.
Lemma qdiv_same (x : num) : x <> Q2Qc 0 -> (x / x)%Qc = Q2Qc 1.
Proof. intros H. unfold Qcdiv. now apply Qcmult_inv_r. Qed.

Global Opaque zq Qcplus Qcmult Qcminus Qcopp Qcinv Qcdiv qround qfloor qltb qleb qeqb.
