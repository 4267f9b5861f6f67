(** What an integer/binary decision is: a plain array of integers within bounds, with a committed
    copy.  Written without reference to the update log or to rational numbers. *)
From Verif Require Import Base NumbersModel.
Set Implicit Arguments.

(** Meaning of each operation on (committed, current); [None]: an index out of range. *)
Definition zspec_op (lo hi : Z) (s : list Z * list Z) (o : nop) : option (list Z * list Z) :=
  let (c, l) := s in
  match o with
  | NSet i v =>
      if negb ((lo <=? v) && (v <=? hi))%Z then Some (c, l)       (* rejected, nothing changes *)
      else if i <? length l then Some (c, lset i v l) else None
  | NExchange i j =>
      match nth_error l i, nth_error l j with
      | Some x, Some y => Some (c, lset i y (lset j x l))
      | _, _ => None
      end
  | NFlip i => match nth_error l i with Some x => Some (c, lset i (1 - x)%Z l) | None => None end
  | NOn i => if i <? length l then Some (c, lset i 1%Z l) else None
  | NOff i => if i <? length l then Some (c, lset i 0%Z l) else None
  | NCommit => Some (l, l)
  | NRevert => Some (c, c)
  end.
Definition zspec_run (lo hi : Z) (s : list Z * list Z) (os : list nop) := ofold (zspec_op lo hi) s os.

(** All indices an operation uses are below [size]. *)
Definition nop_in_range (size : nat) (o : nop) : Prop :=
  match o with
  | NSet i _ | NFlip i | NOn i | NOff i => i < size
  | NExchange i j => i < size /\ j < size
  | NCommit | NRevert => True
  end.
