(** Models of [UnaryOpNode] (src/nodes/mathematical.cpp:1711-1913), [WhereNode]
    (src/nodes/flow.cpp:27-262), [ReshapeNode] and [SizeNode] (src/nodes/manipulation.cpp:173-271).
    Simplifications as in BinaryModel: proper numbers, views as flat lists in logical order. *)
From Verif Require Import Base SliceModel ShapeModel StateDataModel NodeSpec BinaryModel.

Section Elem.
Context {V : Type}.
Variable veqb : V -> V -> bool.
(** Conversion of a number to [bool]. *)
Variable truth : V -> bool.
(** Conversion of a size to a number. *)
Variable ofsize : nat -> V.

(** * UnaryOpNode *)
Section Unary.
Variable f : V -> V.
(** [initialize_state], mathematical.cpp:1737-1752. *)
Definition un_init (pins : list (pin V)) : res (@adata V) :=
  match pins with [p] => Ok (a_init (map f (pview p))) | _ => UB end.

(** Loop body of [propagate], 1879-1891; a failing assertion is [UB]. *)
Definition un_step (d : @adata V) (u : update V) : res (@adata V) :=
  if placed u then
    match uval u with
    | Some v => if uidx u =? length (abuf d) then Ok (fst (a_push d (f v))) else UB
    | None => UB
    end
  else match uval u with
    | None => if S (uidx u) =? length (abuf d) then lift_update (a_pop d) else UB
    | Some v => lift_update (a_set veqb d (uidx u) (f v))
    end.
(** [propagate], 1874-1894. *)
Definition un_prop (d : @adata V) (pins : list (pin V)) : res (@adata V) :=
  match pins with [p] => rfold un_step d (pdiff p) | _ => UB end.
End Unary.

(** * WhereNode *)
(** Constructor and [same_shape], flow.cpp:28-43, 109-129: the output shape. *)
Definition where_new (cs xs ys : list Z) : res (list Z) :=
  if zlist_eqb xs ys then
    if (shape_to_size cs =? 1)%Z then Ok xs
    else if zlist_eqb cs xs then if (shape_to_size cs <? 0)%Z then Throw else Ok xs
    else Throw
  else Throw.

(** The loop of [initialize_state], 150-154. *)
Fixpoint where_zip (c x y : list V) : res (list V) :=
  match c, x, y with
  | [], _, _ => Ok []
  | a :: c', b :: x', d :: y' =>
      rbind (where_zip c' x' y') (fun t => Ok ((if truth a then b else d) :: t))
  | _, _, _ => UB
  end.

Variable cs : list Z.

(** [initialize_state], 138-168. *)
Definition where_init (pins : list (pin V)) : res (@adata V) :=
  match pins with
  | [c; x; y] =>
      if negb (shape_to_size cs =? 1)%Z then
        rbind (where_zip (pview c) (pview x) (pview y)) (fun vs => Ok (a_init vs))
      else match pview c with
           | b :: _ => Ok (a_init (if truth b then pview x else pview y))
           | [] => UB
           end
  | _ => UB
  end.

(** Sorting and removing duplicates, 75-76: insertion into a strictly increasing list. *)
Fixpoint insert_nodup (i : nat) (l : list nat) : list nat :=
  match l with
  | [] => [i]
  | j :: t => if i <? j then i :: l else if i =? j then l else j :: insert_nodup i t
  end.
Definition sort_unique (l : list nat) : list nat := fold_right insert_nodup [] l.

(** Loop body of [apply_diffs], 84-102: the iterators have been advanced to [i]. *)
Definition where_step (c x y : list V) (d : @adata V) (i : nat) : res (@adata V) :=
  match nth_error (abuf d) i, nth_error c i, nth_error x i, nth_error y i with
  | Some old, Some ci, Some xi, Some yi =>
      let v := if truth ci then xi else yi in
      if veqb old v then Ok d
      else Ok {| abuf := lset i v (abuf d); aupd := aupd d ++ [change i old v]; aprev := aprev d |}
  | _, _, _, _ => UB
  end.

(** [_flipped], 177-184; NaN converts to [true]. *)
Definition obool (o : option V) : bool := match o with Some v => truth v | None => true end.
Definition flipped (us : list (update V)) : bool :=
  fold_left (fun flip u => if xorb (obool (uold u)) (obool (uval u)) then negb flip else flip) us false.

(** [propagate], 186-226. *)
Definition where_prop (d : @adata V) (pins : list (pin V)) : res (@adata V) :=
  match pins with
  | [c; x; y] =>
      if negb (shape_to_size cs =? 1)%Z then
        let us := pdiff c ++ pdiff x ++ pdiff y in
        if existsb (fun u => placed u || removed u) us then UB
        else rfold (where_step (pview c) (pview x) (pview y)) d (sort_unique (map (@uidx V) us))
      else match pview c with
           | b :: _ =>
               if flipped (pdiff c) then
                 Ok (fst (a_assign veqb d (if truth b then pview x else pview y)))
               else lift_update (a_update d (if truth b then pdiff x else pdiff y))
           | [] => UB
           end
  | _ => UB
  end.

(** [size_diff], 259-262. *)
Definition where_out (shape : list Z) (d : @adata V) : pin V :=
  {| pview := abuf d; pdiff := aupd d;
     psdiff := if (shape_to_size shape <? 0)%Z then a_size_diff d else 0%Z |}.

(** * ReshapeNode: a stateless view, manipulation.cpp:173-220. *)
(** Constructor, 173-207; [contiguous] is the operand's [contiguous()]. *)
Definition reshape_new (contiguous : bool) (ps shape : list Z) : res (list Z) :=
  if negb contiguous then Throw
  else if (shape_to_size ps <? 0)%Z then Throw
  else if (shape_to_size shape <? 0)%Z then Throw
  else if negb (shape_to_size shape =? shape_to_size ps)%Z then Throw
  else Ok shape.
(** [buff], [diff], 212-218; [size_diff] is 0 for fixed sizes (array.hpp:806-810). *)
Definition reshape_out (pins : list (pin V)) : option (pin V) :=
  match pins with [p] => Some {| pview := pview p; pdiff := pdiff p; psdiff := 0%Z |} | _ => None end.
(** The node has no state of its own, 209-220. *)
Definition reshape_node (ps shape : list Z) : node V :=
  {| nd_shape := shape; nd_pre := [ps]; nd_ST := unit; nd_init := fun _ => Ok tt;
     nd_out := fun _ pins => reshape_out pins; nd_prop := fun s _ => Ok s;
     nd_commit := fun s => s; nd_revert := fun s => Ok s |}.

(** * SizeNode, manipulation.cpp:222-271. *)
Definition size_init (pins : list (pin V)) : res (@sdata V) :=
  match pins with [p] => Ok (s_init (ofsize (length (pview p)))) | _ => UB end.
Definition size_prop (d : @sdata V) (pins : list (pin V)) : res (@sdata V) :=
  match pins with [p] => Ok (s_set d (ofsize (length (pview p)))) | _ => UB end.

End Elem.
