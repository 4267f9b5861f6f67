(** Sums along one axis. *)
From Verif Require Import Base ShapeSpec NodeSpec Num NarySpec.

(** The multi-index [idx] with [j] inserted as coordinate number [axis]. *)
Definition insert_at (axis : nat) (j : Z) (idx : list Z) : list Z := firstn axis idx ++ j :: skipn axis idx.
Definition remove_at (axis : nat) (s : list Z) : list Z := firstn axis s ++ skipn (S axis) s.

(** [out] (of shape [s] without [axis]) holds the sums of [l] (of shape [s]) along [axis]. *)
Definition axis_sums (init : Qc) (s : list Z) (axis : nat) (l out : list Qc) : Prop :=
  Z.of_nat (length out) = prod (remove_at axis s) /\
  forall idx, in_range (remove_at axis s) idx ->
    exists col,
      length col = Z.to_nat (nth axis s 0%Z) /\
      (forall j, (j < Z.to_nat (nth axis s 0%Z)) ->
         nth_error l (Z.to_nat (rank s (insert_at axis (Z.of_nat j) idx))) = nth_error col j) /\
      nth_error out (Z.to_nat (rank (remove_at axis s) idx)) = Some (init + qsum_of col)%Qc.

(** A memory and strides (in bytes) presenting contents [l] of shape [s]. *)
Definition presents (s pst : list Z) (mem : list Qc -> Z -> option Qc) : Prop :=
  length pst = length s /\ Forall (fun st => (8 | st)%Z) pst /\
  forall l idx, fits s l -> in_range s idx ->
    mem l (offset pst idx / 8)%Z = nth_error l (Z.to_nat (rank s idx)).

(** The same as a function: with [A], [d], [B] the sizes before, along and after the axis, element
    [k] is the sum of elements [((k / B) * d + j) * B + k mod B]. *)
Section F.
Variables A d B : nat.
Definition cell (k j : nat) : nat := (k / B * d + j) * B + k mod B.
Definition axis_sum (init : Qc) (l : list Qc) (k : nat) : Qc :=
  (init + qsum_of (map (fun j => nth (cell k j) l 0%Qc) (seq 0 d)))%Qc.
Definition axis_fun (init : Qc) (ins : list (list Qc)) : option (list Qc) :=
  match ins with
  | [l] => if length l =? A * d * B then Some (map (axis_sum init l) (seq 0 (A * B))) else None
  | _ => None
  end.
End F.
Definition dim_before (s : list Z) (axis : nat) : nat := Z.to_nat (prod (firstn axis s)).
Definition dim_at (s : list Z) (axis : nat) : nat := Z.to_nat (nth axis s 0%Z).
Definition dim_after (s : list Z) (axis : nat) : nat := Z.to_nat (prod (skipn (S axis) s)).
Definition pr_fun (s : list Z) (axis : nat) : Qc -> list (list Qc) -> option (list Qc) :=
  axis_fun (dim_before s axis) (dim_at s axis) (dim_after s axis).
