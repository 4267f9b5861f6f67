(** Model of [ConcatenateNode] (src/nodes/manipulation.cpp:20-171).  Simplification: operands are flat
    lists in logical order. *)
From Verif Require Import Base SliceModel ShapeModel StateDataModel NodeSpec BinaryModel.

(** The comparison of two consecutive operands, 88-118. *)
Definition dims_match (axis : Z) (a b : list Z) : bool :=
  forallb (fun i => (Z.of_nat i =? axis)%Z || (nth i a 0 =? nth i b 0)%Z) (seq 0 (length b)).
Fixpoint conc_check (axis : Z) (shapes : list (list Z)) : bool :=
  match shapes with
  | a :: t =>
      match t with
      | b :: _ => (length a =? length b) && dims_match axis a b && conc_check axis t
      | [] => true
      end
  | [] => true
  end.

(** [make_concatenate_shape], 80-146. *)
Definition conc_shape (shapes : list (list Z)) (axis : Z) : res (list Z) :=
  match shapes with
  | [] => Throw
  | s0 :: rest =>
      if negb (conc_check axis shapes) then Throw
      else if negb ((0 <=? axis) && (axis <? Z.of_nat (length s0)))%Z then Throw
      else let k := Z.to_nat axis in
           Ok (lset k (fold_left (fun n s => n + nth k s 0)%Z rest (nth k s0 0%Z)) s0)
  end.

(** Constructor, 31-53: the output shape. *)
Definition conc_new (shapes : list (list Z)) (axis : Z) : res (list Z) :=
  rbind (conc_shape shapes axis) (fun out =>
    if existsb (fun s => shape_to_size s <? 0)%Z shapes then Throw else Ok out).

(** [array_starts_], 34-41.  The initial value 1 of [std::accumulate] is an [int]: every partial
    product is converted to 32 bits. *)
Definition int_prod (s : list Z) : Z := fold_left (fun acc d => to_int (acc * d)) s 1%Z.
Fixpoint conc_starts (axis : nat) (start : Z) (shapes : list (list Z)) : list Z :=
  match shapes with
  | [] => []
  | s :: t => start :: conc_starts axis (start + int_prod (skipn axis s)) t
  end.

Section Concat.
Context {V : Type}.
Variable veqb : V -> V -> bool.
(** The value of new elements of a vector. *)
Variable vzero : V.
(** Whether assertions are compiled in. *)
Variable dbg : bool.
Variable out : list Z.
Variable shapes : list (list Z).
Variable axis : nat.

(** The strided iterator of 66-71 and 152-156: an operand's shape with the output's strides. *)
Definition conc_view (s : list Z) (start : Z) : iter := it_begin false start s (shape_to_strides out).

(** [std::copy], 73. *)
Fixpoint conc_copy (l : list V) (it : iter) (buf : list V) : res (list V) :=
  match l with
  | [] => Ok buf
  | x :: t =>
      if ((0 <=? it_ptr it) && (it_ptr it <? Z.of_nat (length buf)))%Z
      then conc_copy t (it_inc it) (lset (Z.to_nat (it_ptr it)) x buf) else UB
  end.

(** [initialize_state], 56-77. *)
Definition conc_init (pins : list (pin V)) : res (@adata V) :=
  rbind (rfold (fun buf p => conc_copy (pview (snd p)) (conc_view (snd (fst p)) (fst (fst p))) buf)
               (repeat vzero (Z.to_nat (shape_to_size out)))
               (combine (combine (conc_starts axis 0 shapes) shapes) pins))
        (fun buf => Ok (a_init buf)).

(** Loop body of [propagate], 158-165.  The recorded old value is [*view_it], the operand's first
    element, not [*update_it].  A removal is undefined here. *)
Definition conc_step (s : list Z) (start : Z) (d : @adata V) (u : update V) : res (@adata V) :=
  match it_add (conc_view s start) (Z.of_nat (uidx u)) with
  | None => UB
  | Some it =>
      if (it_ptr it <? 0)%Z then UB
      else let p := Z.to_nat (it_ptr it) in
      match nth_error (abuf d) p, nth_error (abuf d) (Z.to_nat start), uval u with
      | Some cur, Some first, Some v =>
          if dbg && negb (match uold u with Some o => veqb cur o | None => false end) then UB
          else Ok {| abuf := lset p v (abuf d); aupd := aupd d ++ [change p first v]; aprev := aprev d |}
      | _, _, _ => UB
      end
  end.

(** [propagate], 148-167. *)
Definition conc_prop (d : @adata V) (pins : list (pin V)) : res (@adata V) :=
  rfold (fun d p => rfold (conc_step (snd (fst p)) (fst (fst p))) d (pdiff (snd p))) d
        (combine (combine (conc_starts axis 0 shapes) shapes) pins).
End Concat.
