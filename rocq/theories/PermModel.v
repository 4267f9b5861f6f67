(** Model of [PermutationNode] and its state (src/nodes/indexing.cpp:29-76, 1600-1753).
    Simplifications: exact arithmetic (the values of [order] are whole numbers, checked by the
    constructor, and [std::pow] is exact); the array is a constant with the strides of
    [shape_to_strides] (constants.hpp:28-100, array.hpp:851-861). *)
From Verif Require Import Base SliceModel ShapeModel StateDataModel NodeSpec BinaryModel Num QuadModel.

(** Conversion of a double to [ssize_t]: the fraction is dropped. *)
Definition ztrunc (q : Qc) : Z := Z.quot (Qnum (this q)) (Zpos (Qden (this q))).

(** A read or write at a signed position. *)
Definition zget {A} (l : list A) (i : Z) : res A := if (i <? 0)%Z then UB else rget l (Z.to_nat i).

(** [std::vector::resize]. *)
Definition resize {A} (k : nat) (pad : A) (l : list A) : list A := firstn k l ++ repeat pad (k - length l).

(** [IndexingNodeData], 29-76. *)
Record idata := IData { i_off : list Z; i_dat : list Qc; i_diff : list (update Qc); i_old : list Z; i_size : nat }.
Definition i_new (off : list Z) (dat : list Qc) : idata := IData off dat [] [] (length off).
Definition i_commit (d : idata) : idata := IData (i_off d) (i_dat d) [] [] (length (i_off d)).
Fixpoint i_undo (us : list (update Qc)) (os : list Z) (off : list Z) (dat : list Qc) : res (list Z * list Qc) :=
  match us, os with
  | [], _ => Ok (off, dat)
  | u :: us', o :: os' =>
      match uold u with
      | Some v => if (uidx u <? length off) && (uidx u <? length dat)
                  then i_undo us' os' (lset (uidx u) o off) (lset (uidx u) v dat) else UB
      | None => UB
      end
  | _ :: _, [] => UB
  end.
Definition i_revert (d : idata) : res idata :=
  let grow := length (i_off d) <? i_size d in
  let off := if grow then resize (i_size d) 0%Z (i_off d) else i_off d in
  let dat := if grow then resize (i_size d) 0%Qc (i_dat d) else i_dat d in
  rbind (i_undo (rev (i_diff d)) (rev (i_old d)) off dat) (fun r =>
    let cut := i_size d <? length (fst r) in
    Ok (IData (if cut then resize (i_size d) 0%Z (fst r) else fst r)
              (if cut then resize (i_size d) 0%Qc (snd r) else snd r) [] [] (i_size d))).

(** Constructor, 1603-1639: [konst] is whether the array is a constant, [integral] and [omax] are the
    order's static bounds. *)
Definition perm_new (konst : bool) (ashape oshape : list Z) (integral : bool) (omax : Qc) : res unit :=
  if negb konst then Throw
  else match ashape with
  | [] => Throw
  | n :: rest =>
      if negb (forallb (fun p => (fst p =? snd p)%Z) (combine rest ashape)) then Throw
      else if dynamic oshape then Throw
      else if negb integral then Throw
      else if negb (length oshape =? 1) then Throw
      else if negb (n =? shape_to_size oshape)%Z then Throw
      else if qltb (zq (shape_to_size ashape)) omax then Throw
      else Ok tt
  end.

Section Perm.
Variable n : nat.
Variable ndim : nat.
Let shape := repeat (Z.of_nat n) ndim.
Let strides := shape_to_strides shape.

(** [std::inner_product(o, strides, 0) / sizeof(double)]: accumulated in an [int], divided unsigned. *)
Fixpoint inner (acc : Z) (o st : list Z) : Z :=
  match o, st with x :: o', s :: st' => inner (to_int (acc + x * s)) o' st' | _, _ => acc end.
Definition offset_of (o : list Z) : Z := (to_u (inner 0 o strides) / 8)%Z.

(** The odometer, 1674-1681: last axis first; the flag says that every axis wrapped. *)
Fixpoint odo (order : list Z) (i : list nat) (o : list Z) : res (bool * list nat * list Z) :=
  match i, o with
  | [], [] => Ok (true, [], [])
  | a :: i', b :: o' =>
      rbind (odo order i' o') (fun r => let '(w, i2, o2) := r in
        if w then
          if S a =? n then rbind (rget order 0) (fun x => Ok (true, 0 :: i2, x :: o2))
          else rbind (rget order (S a)) (fun x => Ok (false, S a :: i2, x :: o2))
        else Ok (false, a :: i2, b :: o2))
  | _, _ => UB
  end.
(** The [do]-[while], 1669-1682, with at most [fuel] rounds. *)
Fixpoint perm_offsets (fuel : nat) (order : list Z) (i : list nat) (o : list Z) : res (list Z) :=
  match fuel with
  | O => UB
  | S f => rbind (odo order i o) (fun r => let '(_, i2, o2) := r in
             if existsb (fun a => negb (a =? 0)) i2
             then rbind (perm_offsets f order i2 o2) (fun t => Ok (offset_of o :: t))
             else Ok [offset_of o])
  end.
Fixpoint rmap {A B} (f : A -> res B) (l : list A) : res (list B) :=
  match l with [] => Ok [] | a :: l' => rbind (f a) (fun b => rbind (rmap f l') (fun t => Ok (b :: t))) end.

(** [initialize_state], 1651-1698. *)
Definition perm_init (pins : list (pin Qc)) : res idata :=
  match pins with
  | [pa; po] =>
      let order := map ztrunc (pview po) in
      rbind (rget order 0) (fun o0 =>
      rbind (perm_offsets (n ^ ndim) order (repeat 0 ndim) (repeat o0 ndim)) (fun offs =>
      rbind (rmap (zget (pview pa)) offs) (fun vals => Ok (i_new offs vals))))
  | _ => UB
  end.

(** One position of the innermost loop, 1727-1739. *)
Definition perm_point (a : list Qc) (stride : Z) (old neo : Qc) (d : idata) (p : nat) : res idata :=
  rbind (rget (i_off d) p) (fun off =>
  let off' := ztrunc (zq off + zq stride * (neo - old))%Qc in
  rbind (rget (i_dat d) p) (fun ov => rbind (zget a off') (fun nv =>
  Ok (IData (lset p off' (i_off d)) (lset p nv (i_dat d)) (i_diff d ++ [change p ov nv]) (i_old d ++ [off]) (i_size d))))).
(** One update of the order on one axis, 1723-1740. *)
Definition perm_update (a : list Qc) (stride : Z) (mul step : nat) (d : idata) (u : update Qc) : res idata :=
  match uold u, uval u with
  | Some old, Some neo => rfold (perm_point a stride old neo) d (map (fun j => uidx u * mul + j * step) (seq 0 n))
  | _, _ => UB
  end.
(** The loop over the axes, 1719-1745. *)
Fixpoint perm_axes (a : list Qc) (us : list (update Qc)) (sts : list Z) (mul step : nat) (d : idata) : res idata :=
  match sts with
  | [] => Ok d
  | s :: sts' => rbind (rfold (perm_update a (Z.quot s 8) mul step) d us) (fun d' => perm_axes a us sts' (mul / n) (step * n) d')
  end.
(** [propagate], 1700-1751, with its assertions. *)
Definition perm_prop (d : idata) (pins : list (pin Qc)) : res idata :=
  match pins with
  | [pa; po] =>
      match i_diff d, pdiff pa with
      | [], [] => match pdiff po with
                  | [] => Ok d
                  | us => perm_axes (pview pa) us strides (n ^ (ndim - 1)) 1 d
                  end
      | _, _ => UB
      end
  | _ => UB
  end.

Definition perm_node : node Qc :=
  {| nd_shape := shape; nd_pre := [shape; [Z.of_nat n]]; nd_ST := idata; nd_init := perm_init;
     nd_out := fun d _ => Some (Pin (i_dat d) (i_diff d) 0); nd_prop := perm_prop; nd_commit := i_commit; nd_revert := i_revert |}.
End Perm.
