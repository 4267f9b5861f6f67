(** Values within declared bounds. *)
From Verif Require Import Base Num BoundsModel.

Definition within (b : bnd) (x : Qc) : Prop := (b_min b <= x)%Qc /\ (x <= b_max b)%Qc /\ (b_int b = true -> is_int x).
(** The declaration: lowest, highest, integrality. *)
Definition declares_ok (lo hi : Qc) (int : bool) (x : Qc) : Prop := (lo <= x)%Qc /\ (x <= hi)%Qc /\ (int = true -> is_int x).
(** A number that a double can hold. *)
Definition finite_double (x : Qc) : Prop := (- DMAX <= x)%Qc /\ (x <= DMAX)%Qc.

(** [r] is the combination of the numbers [xs]. *)
From Verif Require Import NarySpec NaryModel.
Definition combines (o : nop) (xs : list Qc) (r : Qc) : Prop :=
  match o with NAdd => r = qsum_of xs | NMul => r = qprod_of xs | NMax => is_max r xs | NMin => is_min r xs end.
