(** Arrays under masks, independently of iterators. *)
From Verif Require Import Base.
Local Open Scope Z_scope.

Section Mask.
Variable V : Type.
Variable truth : V -> bool.
(** [l] is in memory from address [p] on. *)
Definition holds (m : Z -> option V) (p : Z) (l : list V) : Prop := forall i v, nth_error l i = Some v -> m (p + Z.of_nat i) = Some v.
(** The fill value where the mask is true, the data elsewhere. *)
Fixpoint masked (fill : V) (mask data : list V) : list V :=
  match mask, data with b :: mask', v :: data' => (if truth b then fill else v) :: masked fill mask' data' | _, _ => [] end.
End Mask.
(** Moves of an iterator and how far they lead. *)
Inductive move := Inc | Dec | Add (n : Z) | Sub (n : Z).
Definition step (o : move) : Z := match o with Inc => 1 | Dec => -1 | Add n => n | Sub n => - n end.
Fixpoint net (os : list move) : Z := match os with [] => 0 | o :: os' => step o + net os' end.
(** The data, the mask and the fill value do not overlap. *)
Definition apart_mem (data : Z) (n : nat) (mask fill : Z) : Prop := (data + Z.of_nat n <= mask \/ mask + Z.of_nat n <= data) /\ (fill < data \/ data + Z.of_nat n <= fill).
