(** What modulus, fractions and the statistics of constants are expected to be. *)
From Verif Require Import Base Num ArithModel.

(** [r] is the remainder of [x] by [y] with the sign of [y]. *)
Definition floored_remainder (x y r : Qc) : Prop :=
  (exists q : Z, x = zq q * y + r)%Qc /\ ((0 < y -> 0 <= r /\ r < y) /\ (y < 0 -> y < r /\ r <= 0))%Qc.

(** The rational denoted by a fraction, and lowest terms. *)
Definition fval (f : fraction) : Qc := (zq (numerator f) / zq (denominator f))%Qc.
Definition lowest (f : fraction) : Prop := (0 < denominator f)%Z /\ Z.gcd (numerator f) (denominator f) = 1%Z.

(** The answer [a] to the query [q] about the elements [l]. *)
Definition good_answer (l : list Qc) (q : query) (a : answer) : Prop :=
  match q, a with
  | QIntegral, ABool b => b = true <-> Forall is_int l
  | QLogical, ABool b => b = true <-> Forall (fun x => x = zq 0 \/ x = zq 1) l
  | QMin, ANum m => (l = [] -> m = zq 0) /\ (l <> [] -> In m l /\ forall x, In x l -> (m <= x)%Qc)
  | QMax, ANum m => (l = [] -> m = zq 0) /\ (l <> [] -> In m l /\ forall x, In x l -> (x <= m)%Qc)
  | _, _ => False
  end.
