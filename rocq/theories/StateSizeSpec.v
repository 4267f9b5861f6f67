(** Which arrays declare how large they can become. *)
From Verif Require Import Base SliceModel SizeModel SizeSpec StateSizeModel.
Local Open Scope Z_scope.

(** The array that an array's declared size refers to. *)
Definition parent (a : arr) : option nat :=
  match a with AScalarOp p | AGather p _ | ASlice p _ _ _ => Some p | AFixed _ | AOwn _ _ | ADefault _ => None end.
(** Parents precede and are dynamic; slices and rows are not degenerate; decisions hold fewer than [SMAX] elements. *)
Definition orderly (nodes : list (option arr)) : Prop := forall id a, nth_error nodes id = Some (Some a) ->
  (forall p, parent a = Some p -> (p < id)%nat /\ exists b, nth_error nodes p = Some (Some b) /\ forall n, b <> AFixed n) /\
  match a with ASlice _ s prow row => sstep s <> 0 /\ prow <> 0 | AOwn _ (Some m) => m < SMAX | _ => True end.

(** Somewhere on the way to the root the number of elements is limited: by a decision, or by a slice of at most so many
    elements at the beginning or end ([SMAX] stands for no stop). *)
Inductive capped (nodes : list (option arr)) : nat -> Prop :=
| K_own id mn m : nth_error nodes id = Some (Some (AOwn mn (Some m))) -> capped nodes id
| K_head id p s prow row : nth_error nodes id = Some (Some (ASlice p s prow row)) -> sstart s < 0 \/ (0 < sstop s /\ sstop s <> SMAX) -> capped nodes id
| K_up id a p : nth_error nodes id = Some (Some a) -> parent a = Some p -> capped nodes p -> capped nodes id.
Definition fixed (nodes : list (option arr)) (id : nat) : Prop := exists n, nth_error nodes id = Some (Some (AFixed n)).
