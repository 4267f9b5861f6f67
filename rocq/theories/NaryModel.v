(** Model of [NaryOpNode] (src/nodes/mathematical.cpp:441-765).  Simplification: exact arithmetic;
    the iterator cache of [NaryOpNodeData] (472-479), cleared before each use, is left out. *)
From Verif Require Import Base SliceModel ShapeModel StateDataModel NodeSpec BinaryModel Num.

(** Constructor and [add_node], 482-519, for nodes not yet in topological order: the output shape. *)
Definition nary_new (shapes : list (list Z)) : res (list Z) :=
  match shapes with
  | [] => Throw
  | s :: _ =>
      if existsb (fun t => shape_to_size t <? 0)%Z shapes then Throw
      else if forallb (fun t => zlist_eqb s t) shapes then Ok s else Throw
  end.

Section Nary.
Context {V : Type}.
Variable veqb : V -> V -> bool.
Variable func : V -> V -> V.
(** [InverseOp], 441-470: [None] if there is none; applied, [None] for a NaN or infinite result. *)
Variable inv : option (V -> V -> option V).

(** The element of every operand at one position; [None] is an out-of-range read. *)
Definition column (views : list (list V)) (i : nat) : option (list V) :=
  all_some (map (fun v => nth_error v i) views).

(** 683-690 and 750-753. *)
Definition nary_reduce (col : list V) : option V :=
  match col with [] => None | x :: t => Some (fold_left (fun val y => func y val) t x) end.

Definition nary_at (views : list (list V)) (i : nat) : option V :=
  match column views i with Some c => nary_reduce c | None => None end.

(** [initialize_state], 662-695: until the first operand is exhausted. *)
Definition nary_init (pins : list (pin V)) : res (@adata V) :=
  match pins with
  | [] => UB
  | p :: _ =>
      match all_some (map (nary_at (map (@pview V) pins)) (seq 0 (length (pview p)))) with
      | Some vs => Ok (a_init vs) | None => UB end
  end.

(** Loop body 722-735.  A NaN old or new value (placement, removal) is undefined here. *)
Definition nary_inv1 (iv : V -> V -> option V) (st : @adata V * list nat) (u : update V)
  : res (@adata V * list nat) :=
  let (d, recs) := st in
  match nth_error (abuf d) (uidx u), uold u, uval u with
  | Some cur, Some old, Some new =>
      match iv cur old with
      | None => Ok (d, recs ++ [uidx u])
      | Some r =>
          let v := func r new in
          Ok ({| abuf := lset (uidx u) v (abuf d); aupd := aupd d ++ [change (uidx u) cur v];
                 aprev := aprev d |}, recs)
      end
  | _, _, _ => UB
  end.

(** Loop body 747-758. *)
Definition nary_rec1 (views : list (list V)) (d : @adata V) (i : nat) : res (@adata V) :=
  match nth_error (abuf d) i, nary_at views i with
  | Some old, Some v =>
      Ok {| abuf := lset i v (abuf d);
            aupd := if veqb v old then aupd d else aupd d ++ [change i old v]; aprev := aprev d |}
  | _, _ => UB
  end.

(** [propagate], 698-760. *)
Definition nary_prop (d : @adata V) (pins : list (pin V)) : res (@adata V) :=
  rbind (match inv with
         | None => Ok (d, flat_map (fun p => map (@uidx V) (pdiff p)) pins)
         | Some iv => rfold (fun st p => rfold (nary_inv1 iv) st (pdiff p)) (d, []) pins
         end)
        (fun st => rfold (nary_rec1 (map (@pview V) pins)) (fst st) (snd st)).

End Nary.

(** The instantiations, 762-765, with [InverseOp], 441-470.  The quotient is NaN or infinite exactly
    when the divisor is 0 (exact arithmetic). *)
Inductive nop := NMax | NMin | NMul | NAdd.
Definition nop_func (o : nop) : Qc -> Qc -> Qc :=
  match o with NMax => qmax | NMin => qmin | NMul => Qcmult | NAdd => Qcplus end.
Definition nop_inv (o : nop) : option (Qc -> Qc -> option Qc) :=
  match o with
  | NMax | NMin => None
  | NMul => Some (fun x y => if qeqb y 0 then None else Some (x / y)%Qc)
  | NAdd => Some (fun x y => Some (x - y)%Qc)
  end.
