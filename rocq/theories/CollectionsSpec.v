(** What a list/set decision is: a sequence of items whose first [size] are exposed, with a
    committed copy. *)
From Verif Require Import Base CollectionsModel.

Section Spec.
Context {V : Type}.

Definition delete_at (i : nat) (l : list V) : list V := firstn i l ++ skipn (S i) l.
Definition insert_at (i : nat) (x : V) (l : list V) : list V := firstn i l ++ x :: skipn i l.
(** Move the element at [src] to position [dest], the ones in between shifting by one. *)
Definition move_elem (dest src : nat) (l : list V) : list V :=
  match nth_error l src with
  | Some x => insert_at dest x (delete_at src l)
  | None => l
  end.
Definition swap_elems (i j : nat) (l : list V) : list V :=
  match nth_error l i, nth_error l j with
  | Some x, Some y => lset i y (lset j x l)
  | _, _ => l
  end.

(** Documented preconditions and effects.  State: committed (items, size), current (items, size). *)
Definition cstate := ((list V * nat) * (list V * nat))%type.
Definition cspec_op (lo hi : nat) (s : cstate) (o : cop) : option cstate :=
  let '(c, (l, k)) := s in
  match o with
  | CExchange i j => if (i <? length l) && (j <? length l) then Some (c, (swap_elems i j l, k)) else None
  | CRotate dest src => if (dest <? k) && (src <? k) then Some (c, (move_elem dest src l, k)) else None
  | CGrow => if k <? hi then Some (c, (l, S k)) else None
  | CShrink => if lo <? k then Some (c, (l, k - 1)) else None
  | CCommit => Some ((l, k), (l, k))
  | CRevert => Some (c, c)
  end.
Definition cspec_run (lo hi : nat) (s : cstate) (os : list cop) : option cstate := ofold (cspec_op lo hi) s os.

End Spec.
