(** Model of [BinaryOpNode] (src/nodes/mathematical.cpp:26-419) for an arbitrary operation.
    Simplification: results are proper numbers (a NaN result would read as a removal); views are
    flat lists in logical order. *)
From Verif Require Import Base SliceModel ShapeModel StateDataModel NodeSpec.

(** [Array::shape(state)] of a well-behaved operand: axis 0 follows the current size
    (array.hpp:718-719, 743-747). *)
Definition state_shape (s : list Z) (n : nat) : list Z :=
  match s with
  | d :: t => if (d <? 0)%Z then (Z.of_nat n / ShapeSpec.prod t)%Z :: t else s
  | [] => []
  end.

Definition zlist_eqb (a b : list Z) : bool := if list_eq_dec Z.eq_dec a b then true else false.

(** Constructor, mathematical.cpp:27-45: the output shape.  (The denominator check of [divides],
    46-52, is in BoundsModel.) *)
Definition bin_new (ls rs : list Z) : res (list Z) :=
  rbind (broadcast_shape ls rs) (fun s =>
    if ((shape_to_size ls =? 1) || (shape_to_size rs =? 1))%Z then Ok s
    else if ((shape_to_size ls <? 0) || (shape_to_size rs <? 0))%Z then Throw
    else if zlist_eqb ls rs then Ok s else Throw).

Section Binary.
Context {V : Type}.
Variable veqb : V -> V -> bool.
Variable op : V -> V -> V.
Variables ls rs : list Z.

(** Flat iteration over both operands, 88-91 (the iteration is over the right one; running out of
    the left one is an out-of-range read). *)
Fixpoint zip_op (l r : list V) : res (list V) :=
  match r, l with
  | [], _ => Ok []
  | y :: r', x :: l' => rbind (zip_op l' r') (fun t => Ok (op x y :: t))
  | _ :: _, [] => UB
  end.

(** [initialize_state], 74-117. *)
Definition bin_init (pins : list (pin V)) : res (@adata V) :=
  match pins with
  | [l; r] =>
      let lv := pview l in let rv := pview r in
      if zlist_eqb (state_shape ls (length lv)) (state_shape rs (length rv)) then
        rbind (zip_op lv rv) (fun vs => Ok (a_init vs))
      else if (shape_to_size ls =? 1)%Z then
        match lv with x :: _ => Ok (a_init (map (op x) rv)) | [] => UB end
      else if (shape_to_size rs =? 1)%Z then
        match rv with y :: _ => Ok (a_init (map (fun x => op x y) lv)) | [] => UB end
      else UB
  | _ => UB
  end.

(** One turn of the loops at 286-299: recompute one element, record it if it differs. *)
Definition bin_recompute (lv rv : list V) (d : @adata V) (i : nat) : res (@adata V) :=
  match nth_error (abuf d) i, nth_error lv i, nth_error rv i with
  | Some old, Some x, Some y =>
      let v := op x y in
      Ok {| abuf := lset i v (abuf d);
            aupd := if veqb v old then aupd d else aupd d ++ [change i old v];
            aprev := aprev d |}
  | _, _, _ => UB
  end.

Fixpoint rfold {A B} (f : A -> B -> res A) (a : A) (l : list B) : res A :=
  match l with [] => Ok a | x :: t => rbind (f a x) (fun a' => rfold f a' t) end.

(** One turn of the loops at 303-307 and 311-315: [g] is the operation with the element [*(it +
    index)] of the other operand [ov].  Simplification: a NaN [value] (a removal) is undefined. *)
Definition bin_apply (g : V -> V -> V) (ov : list V) (d : @adata V) (u : update V) : res (@adata V) :=
  match nth_error (abuf d) (uidx u), uval u, nth_error ov (uidx u) with
  | Some old, Some x, Some y =>
      let v := g x y in
      Ok {| abuf := lset (uidx u) v (abuf d); aupd := aupd d ++ [change (uidx u) old v]; aprev := aprev d |}
  | _, _, _ => UB
  end.

(** [update_func], 333-336 and 354-357. *)
Definition bin_upd (f : V -> V) (u : update V) : update V :=
  if removed u then u else Upd (uidx u) (uold u) (option_map f (uval u)).

Definition lift_update (o : option (@adata V * bool)) : res (@adata V) :=
  match o with Some (d, _) => Ok d | None => UB end.

(** [propagate], 266-358. *)
Definition bin_prop (d : @adata V) (pins : list (pin V)) : res (@adata V) :=
  match pins with
  | [l; r] =>
      let lv := pview l in let rv := pview r in
      if zlist_eqb (state_shape ls (length lv)) (state_shape rs (length rv)) then
        match pdiff l, pdiff r with
        | _ :: _, _ :: _ =>
            rbind (rfold (bin_recompute lv rv) d (map (@uidx V) (pdiff l)))
                  (fun d1 => rfold (bin_recompute lv rv) d1 (map (@uidx V) (pdiff r)))
        | _ :: _, [] => rfold (bin_apply op rv) d (pdiff l)
        | [], _ => rfold (bin_apply (fun y x => op x y) lv) d (pdiff r)
        end
      else if (shape_to_size ls =? 1)%Z then
        match lv with
        | x :: _ =>
            match pdiff l with
            | _ :: _ => Ok (fst (a_assign veqb d (map (op x) rv)))
            | [] => lift_update (a_update d (map (bin_upd (op x)) (pdiff r)))
            end
        | [] => UB
        end
      else if (shape_to_size rs =? 1)%Z then
        match rv with
        | y :: _ =>
            match pdiff r with
            | _ :: _ => Ok (fst (a_assign veqb d (map (fun x => op x y) lv)))
            | [] => lift_update (a_update d (map (bin_upd (fun x => op x y)) (pdiff l)))
            end
        | [] => UB
        end
      else UB
  | _ => UB
  end.

(** [shape(state)], 365-375, given the output's static shape [s] and the operands' sizes. *)
Definition bin_state_shape (s : list Z) (nl nr : nat) : res (list Z) :=
  if negb (shape_to_size s <? 0)%Z then Ok s
  else if (nl =? 1) || (nr =? 1) then
    Ok (if nl =? 1 then state_shape rs nr else state_shape ls nl)
  else UB.

(** [size(state)], 377-391. *)
Definition bin_state_size (s : list Z) (nl nr : nat) : res Z :=
  if (0 <=? shape_to_size s)%Z then Ok (shape_to_size s)
  else if (nl =? 1) || (nr =? 1) then Ok (Z.of_nat (if nl =? 1 then nr else nl)) else UB.

End Binary.
