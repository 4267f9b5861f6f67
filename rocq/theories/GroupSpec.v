(** What the disjoint decisions and their parts promise in a whole model. *)
From Verif Require Import Base Num SliceModel StateDataModel StateDataSpec NodeSpec CollectionsModel DisjointModel DisjointSpec ViewModel ProposeModel ProposeSpec GroupModel.

(** The states they may start from, and their moves (for lists without [set_state], which may lose items; for bit-sets of an
    item there is, which [swap_between_sets] does not check). *)
Definition lists_start (n k : nat) (d : list (@adata num)) : Prop := dl_init_default n k = Some d \/ exists contents, dl_init n k contents = Ok d.
Definition lists_move (d d' : list (@adata num)) : Prop :=
  exists o, match o with DRotate _ _ _ | DSwap _ _ _ | DPop _ _ _ _ => True | _ => False end /\ dl_step d o = Some d'.
(** Bit-sets given explicitly have to be a partition; the constructor does not check all of that. *)
Definition bits_partition (n k : nat) (rows : list (list num)) : Prop :=
  exists owner, length owner = n /\ Forall (fun s => s < k) owner /\ rows = map (indicator owner) (seq 0 k).
Definition bits_start (n k : nat) (d : bsdata) : Prop :=
  bs_init_default n k = Some d \/ exists rows, bits_partition n k rows /\ bs_init n k rows = Ok d.
Definition bits_move (n : nat) (d d' : bsdata) : Prop := exists f t e, e < n /\ bs_swap d f t e = Some d'.

(** Contents in order: [good] of them before and after, and for every part its log leads from the one to the other,
    changes only if the size is fixed, and has values satisfying [D]. *)
Definition group_ok (good : list (list num) -> Prop) (D : num -> Prop) (fixed : bool) (p : pin num) : Prop :=
  exists old new prevs logs, p = group_pin old new prevs logs /\ good old /\ good new /\ length old = length new /\ length prevs = length new /\ length logs = length new /\
    forall i o v us k, nth_error old i = Some o -> nth_error new i = Some v -> nth_error logs i = Some us -> nth_error prevs i = Some k ->
      replay qeqb o us = Some v /\ k = length o /\ (fixed = true -> Forall is_change us) /\ Forall D o /\ Forall D v /\
      Forall (fun u => forall x, uold u = Some x \/ uval u = Some x -> D x) us.

(** The value of part [i], of the given length if any, of values between [lo] and [hi]. *)
Definition wholeb (lo hi : Z) (x : num) : bool := (qeqb (zq (qtrunc x)) x && (lo <=? qtrunc x)%Z && (qtrunc x <=? hi)%Z)%bool.
Definition part_fun (len : option nat) (lo hi : Z) (i : nat) (ins : list (list num)) : option (list num) :=
  match ins with
  | [w] => match unwire i w with
           | Some v => if (match len with Some n => length v =? n | None => true end) && forallb (wholeb lo hi) v then Some v else None
           | None => None
           end
  | _ => None
  end.
