(** What indexing selects, in NumPy's terms. *)
From Verif Require Import Base SliceModel ShapeSpec SliceSpec BasicModel.
Local Open Scope Z_scope.

Definition zseq (n : Z) : list Z := map Z.of_nat (seq 0 (Z.to_nat n)).

(** Positions chosen along an axis of size [d]; step positive. *)
Definition chosen (d : Z) (i : sidx) : list Z :=
  match i with
  | IInt z => [py_norm d z]
  | ISlice s => filter (fun x => let first := Z.max 0 (py_norm d (sstart s)) in
                                 (first <=? x) && (x <? py_norm d (sstop s)) && ((x - first) mod sstep s =? 0)) (zseq d)
  end.
(** The shape of the result: integers drop their axis. *)
Fixpoint sel_shape (shape : list Z) (idx : list sidx) : list Z :=
  match shape, idx with
  | d :: sh, (ISlice s) as i :: r => Z.of_nat (length (chosen d i)) :: sel_shape sh r
  | _ :: sh, IInt _ :: r => sel_shape sh r
  | _, _ => []
  end.
(** The selected elements in order, by their number in the array. *)
Fixpoint selected (shape : list Z) (idx : list sidx) : list Z :=
  match shape, idx with
  | d :: sh, i :: r => flat_map (fun x => map (fun o => x * prod sh + o) (selected sh r)) (chosen d i)
  | _, _ => [0]
  end.

(** What is accepted: one index per axis, positive steps, integers in range. *)
Definition axis_ok (d : Z) (i : sidx) : Prop :=
  match i with IInt z => -d <= z < d | ISlice s => 0 < sstep s end.
Definition accepts (shape : list Z) (idx : list sidx) : Prop := Forall2 axis_ok shape idx.

(** Multi-indices in row-major order, and the elements of a view by number of doubles from the array's first. *)
Fixpoint all_idx (shape : list Z) : list (list Z) :=
  match shape with [] => [[]] | d :: sh => flat_map (fun x => map (cons x) (all_idx sh)) (zseq d) end.
Definition elements (p : parsed) : list Z := map (fun v => p_start p + offset (p_strides p) v / 8) (all_idx (p_shape p)).

(** Strides of a contiguous array: row-major, except that an axis of size 1 may have a wider one. *)
Fixpoint packed (shape strides : list Z) : Prop :=
  match shape, strides with
  | [], [] => True
  | d :: sh, s :: st => (s = 8 * prod sh \/ (d = 1 /\ exists w, s = 8 * w /\ prod sh <= w)) /\ packed sh st
  | _, _ => False
  end.
(** No slice starts past the end of its axis. *)
Definition starts_inside (shape : list Z) (idx : list sidx) : Prop :=
  Forall2 (fun d i => match i with ISlice s => py_norm d (sstart s) < d | IInt _ => True end) shape idx.
