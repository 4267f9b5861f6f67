(** Independent specification for the array state: replay of an update list, and the
    array as a plain pair (committed list, current list). *)
From Verif Require Import Base StateDataModel.
Set Implicit Arguments.

Section Spec.
Context {V : Type}.
Variable veqb : V -> V -> bool.

(** One update applied to an array, with the checks of the library's validation node
    (src/nodes/testing.cpp:89-132): placements only at the end, removals only of the last
    element, recorded old values accurate. *)
Definition replay1 (l : list V) (u : update V) : option (list V) :=
  match uold u, uval u with
  | None, Some v => if uidx u =? length l then Some (l ++ [v]) else None
  | Some o, None =>
      match nth_error l (uidx u) with
      | Some x => if (S (uidx u) =? length l) && veqb x o then Some (removelast l) else None
      | None => None
      end
  | Some o, Some v =>
      match nth_error l (uidx u) with
      | Some x => if veqb x o then Some (lset (uidx u) v l) else None
      | None => None
      end
  | None, None => None
  end.

Definition replay (l : list V) (us : list (update V)) : option (list V) := ofold replay1 l us.

(** What each operation means for the plain array; [None] when the operation is not
    allowed. *)
Definition spec_update1 (l : list V) (u : update V) : option (list V) :=
  match uold u, uval u with
  | _, None => if S (uidx u) =? length l then Some (removelast l) else None
  | None, Some v => if uidx u =? length l then Some (l ++ [v]) else None
  | Some _, Some v => if uidx u <? length l then Some (lset (uidx u) v l) else None
  end.

Definition spec_op (committed current : list V) (o : aop) : option (list V * list V) :=
  match o with
  | OSet i v => if i <? length current then Some (committed, lset i v current) else None
  | OExchange i j =>
      match nth_error current i, nth_error current j with
      | Some x, Some y => Some (committed, lset i y (lset j x current))
      | _, _ => None
      end
  | OPush v => Some (committed, current ++ [v])
  | OPop => match current with [] => None | _ => Some (committed, removelast current) end
  | OAssign vs => Some (committed, vs)
  | OUpdate us =>
      match ofold spec_update1 current us with
      | Some l => Some (committed, l) | None => None end
  | OCommit => Some (current, current)
  | ORevert => Some (committed, committed)
  end.

Definition spec_run (c : list V * list V) (os : list aop) : option (list V * list V) :=
  ofold (fun c o => spec_op (fst c) (snd c) o) c os.

End Spec.
Arguments replay {V} veqb l us : simpl never.
Arguments replay1 {V} veqb l u : simpl never.
