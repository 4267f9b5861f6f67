(** What the operators that build or change symbols in place should do. *)
From Verif Require Import Base Num NaryModel PyModel PySpec EqSpec.

(** NumPy's [a + b] and [a * b] of arrays of one shape, and [a ** n]. *)
Definition both (times : bool) (a b : list num) : list num := map (fun p => if times then fst p * snd p else fst p + snd p)%Qc (combine a b).
Definition power (n : nat) (a : list num) : list num := map (fun x => Qcpower x n) a.

(** Whatever had a value has it still. *)
Definition kept (m m' : pym) (dv : nat -> list num) (except : nat -> Prop) : Prop :=
  forall z v, ~ except z -> yields m dv z v -> yields m' dv z v.
