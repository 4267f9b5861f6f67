(** What is read through a buffer, as in the buffer protocol: the element of a multi-index is at the sum of the
    indices times the strides, in bytes. *)
From Verif Require Import Base ShapeSpec StateDataModel NodeSpec BasicModel BasicSpec ViewModel BufModel.
Local Open Scope Z_scope.

Section BS.
Context {V : Type}.
(** The double at a byte; none outside the memory or across two of them. *)
Definition double_at (memory : list V) (b : Z) : option V :=
  if (0 <=? b) && (b mod 8 =? 0) then nth_error memory (Z.to_nat (b / 8)) else None.
Definition read_buffer (memory : list V) (b : buffer) : option (list V) :=
  all_some (map (fun v => double_at memory (bu_buf b + offset (bu_strides b) v)) (all_idx (bu_shape b))).

(** The states of a view along its life, each with the contents of the array at that point. *)
Section Life.
Variables (veqb : V -> V -> bool) (dbg : bool) (ps : list Z) (p : parsed) (contiguous : bool).
Inductive reached : @bst V -> list V -> Prop :=
| r_init a st : view_init ps p contiguous a = Ok st -> reached st a
| r_prop st a q st' : reached st a -> view_prop veqb dbg ps p contiguous st q = Ok st' -> reached st' (pview q)
| r_commit st a st' : reached st a -> view_commit p contiguous st a = Ok st' -> reached st' a
| r_revert st a old st' : reached st a -> view_revert dbg ps p contiguous st old = Ok st' -> reached st' old.
End Life.
End BS.
