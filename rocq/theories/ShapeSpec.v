(** Row-major layout, independently of the code. *)
From Verif Require Import Base.
Local Open Scope Z_scope.

(** Dimension [i] counted from the right; a missing dimension counts as 1. *)
Definition dimr (s : list Z) (i : nat) : Z := nth i (rev s) 1.

(** NumPy's compatibility rule. *)
Definition compatible (l r : list Z) : Prop :=
  forall i, dimr l i = dimr r i \/ dimr l i = 1 \/ dimr r i = 1.

Definition is_broadcast (l r s : list Z) : Prop :=
  length s = Nat.max (length l) (length r) /\
  forall i, dimr s i = if dimr l i =? 1 then dimr r i else dimr l i.

Fixpoint prod (l : list Z) : Z := match l with [] => 1 | d :: t => d * prod t end.

(** Number of a multi-index in row-major order (Horner's rule, leftmost axis slowest). *)
Definition rank (shape idx : list Z) : Z :=
  fold_left (fun acc p => acc * fst p + snd p) (combine shape idx) 0.

Definition in_range (shape idx : list Z) : Prop := Forall2 (fun d i => 0 <= i < d) shape idx.

(** As [in_range], but axis 0 is unbounded. *)
Definition in_range_tl (shape idx : list Z) : Prop :=
  length shape = length idx /\ in_range (tl shape) (tl idx).

(** Byte offset of an element. *)
Fixpoint offset (strides idx : list Z) : Z :=
  match strides, idx with s :: t, i :: u => i * s + offset t u | _, _ => 0 end.

(** Walking in logical order walks consecutive doubles. *)
Definition layout (shape strides : list Z) : Prop :=
  forall idx, in_range shape idx -> offset strides idx = 8 * rank shape idx.

(** Distance in bytes between the extreme elements of some axes, and the condition that every axis
    steps over everything inside it (no two elements share memory). *)
Fixpoint span (shape strides : list Z) : Z :=
  match shape, strides with d :: sh, s :: st => (d - 1) * Z.abs s + span sh st | _, _ => 0 end.
Fixpoint spread (shape strides : list Z) : Prop :=
  match shape, strides with _ :: sh, s :: st => span sh st < Z.abs s /\ spread sh st | _, _ => True end.
