(** Model of [PartialReduceNode<std::plus>] (src/nodes/mathematical.cpp:767-1073).  Simplifications:
    exact arithmetic; [std::reduce] is a left fold. *)
From Verif Require Import Base SliceModel ShapeModel StateDataModel NodeSpec BinaryModel Num.

(** [partial_reduce_shape], 768-773, for a valid axis. *)
Definition drop_axis {A} (k : nat) (l : list A) : list A := firstn k l ++ skipn (S k) l.

(** Constructor, 797-823: the output shape.  The base class is initialised first, so that an axis out
    of range is erased from the shape (undefined behaviour) before it is checked (818). *)
Definition pr_new (s : list Z) (axes : list Z) : res (list Z) :=
  match axes with
  | [] => Throw
  | a :: rest =>
      if ((a <? 0) || (Z.of_nat (length s) <=? a))%Z then UB
      else if (shape_to_size s <? 0)%Z then Throw
      else if (shape_to_size s <? 1)%Z then Throw
      else match rest with [] => Ok (drop_axis (Z.to_nat a) s) | _ => Throw end
  end.

Section Partial.
(** Whether assertions are compiled in (a failing one is then undefined). *)
Variable dbg : bool.
(** Operand shape and strides; axis; initial value. *)
Variables s pst : list Z.
Variable axis : nat.
Variable init : Qc.
(** The operand's memory, as doubles counted from its [buff], when its contents are the given list. *)
Variable mem : list Qc -> Z -> option Qc.

Definition pr_shape : list Z := drop_axis axis s.

(** The loop of [map_parent_index], 919-943, over [parent_strides_c_] (775-786, the same recursion as
    [shape_to_strides]); [ost]: the output strides not yet used. *)
Fixpoint map_loop (pc ost : list Z) (cur : nat) (flat index : Z) : res Z :=
  match pc with
  | [] => Ok index
  | stride :: pc' =>
      let w := Z.quot stride itemsize in
      if (w =? 0)%Z then UB
      else
        let i := Z.quot flat w in
        let flat' := Z.rem flat w in
        if cur =? axis then map_loop pc' ost (S cur) flat' index
        else match ost with
             | so :: ost' => map_loop pc' ost' (S cur) flat' (index + i * Z.quot so itemsize)
             | [] => UB
             end
  end.

(** [map_parent_index], 912-944, with its assertions on an operand of size [n]. *)
Definition map_parent_index (n : nat) (flat : nat) : res Z :=
  if dbg && negb ((axis <? n) && (flat <? n)) then UB
  else map_loop (shape_to_strides s) (shape_to_strides pr_shape) 0 (Z.of_nat flat) 0.

(** The start index, 1015-1022. *)
Fixpoint pr_start (ax : nat) (idx : list Z) : Z :=
  match idx with
  | [] => 0%Z
  | i :: t => (Z.quot (i * nth (if (axis <=? ax)%nat then S ax else ax) pst 0) itemsize + pr_start (S ax) t)%Z
  end.

(** [reduce], 997-1050.  The iterator (1027-1031) has one axis: its elements are [strides[axis]] bytes
    apart (C24). *)
Definition pr_reduce (l : list Qc) (index : nat) : res Qc :=
  rbind (unravel_index (shape_to_strides pr_shape) (Z.of_nat index)) (fun idx =>
    let start := pr_start 0 idx in
    if dbg && (start <? 0)%Z then UB
    else match all_some (map (fun j => mem l (start + Z.of_nat j * Z.quot (nth axis pst 0%Z) itemsize)%Z)
                             (seq 0 (Z.to_nat (nth axis s 0%Z)))) with
         | Some vs => Ok (fold_left Qcplus vs init)
         | None => UB
         end).

Fixpoint rall {A} (l : list (res A)) : res (list A) :=
  match l with [] => Ok [] | x :: t => rbind x (fun a => rbind (rall t) (fun r => Ok (a :: r))) end.

(** [initialize_state], 877-892. *)
Definition pr_init (pins : list (pin Qc)) : res (@adata Qc) :=
  match pins with
  | [p] => rbind (rall (map (pr_reduce (pview p)) (seq 0 (Z.to_nat (shape_to_size pr_shape)))))
             (fun vs => Ok (a_init vs))
  | _ => UB
  end.

(** Loop body 987-992; a NaN old or new value is undefined here. *)
Definition pr_step (n : nat) (d : @adata Qc) (u : update Qc) : res (@adata Qc) :=
  rbind (map_parent_index n (uidx u)) (fun k =>
    let i := Z.to_nat k in
    match nth_error (abuf d) i, uold u, uval u with
    | Some prev, Some o, Some v =>
        let w := (prev + (v - o))%Qc in
        Ok {| abuf := lset i w (abuf d); aupd := aupd d ++ [change i prev w]; aprev := aprev d |}
    | _, _, _ => UB
    end).

(** [propagate], 980-995. *)
Definition pr_prop (d : @adata Qc) (pins : list (pin Qc)) : res (@adata Qc) :=
  match pins with
  | [p] => rfold (pr_step (length (pview p))) d (pdiff p)
  | _ => UB
  end.
End Partial.
