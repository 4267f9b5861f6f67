(** Model of [deduplicate_diff], src/utils.cpp:23-78. *)
From Verif Require Import Base StateDataModel.
Set Implicit Arguments.

Section Dedup.
Context {V : Type}.
Variable veqb : V -> V -> bool.

(** [Update::identity], array.hpp:230: C++ [old == value], false as soon as one is NaN. *)
Definition identity (u : update V) : bool :=
  match uold u, uval u with Some o, Some v => veqb o v | _, _ => false end.

(** [std::stable_sort] by [operator<] on the index (utils.cpp:26, array.hpp:195-197), as a
    stable insertion sort: an element is inserted before the first element whose index is not
    smaller, scanning the input from the right. *)
Fixpoint insert_upd (u : update V) (l : list (update V)) : list (update V) :=
  match l with
  | [] => [u]
  | h :: t => if uidx u <=? uidx h then u :: l else h :: insert_upd u t
  end.
Definition stable_sort (l : list (update V)) : list (update V) := fold_right insert_upd [] l.

(** utils.cpp:30-44: drop everything before the first update that is not an identity. *)
Fixpoint drop_identities (l : list (update V)) : list (update V) :=
  match l with
  | [] => []
  | u :: t => if identity u then drop_identities t else l
  end.

(** The compaction loop, utils.cpp:46-69.  [acc] is [diff[0..new_index]] reversed, so its head is
    [diff[new_index]].  Reading [diff[-1]] (line 66 after the [break] of line 57 with
    [new_index] = -1) is undefined behaviour: outcome [None]. *)
Fixpoint compact (acc : list (update V)) (rest : list (update V)) : option (list (update V)) :=
  match acc with
  | [] => None
  | h :: t =>
      match rest with
      | [] => Some (if unull h then t else acc)
      | u :: r =>
          if uidx u =? uidx h then compact (Upd (uidx h) (uold h) (uval u) :: t) r
          else if unull h then
                 match t with
                 | [] => None
                 | h' :: t' => Some (if unull h' then t' else t)
                 end
          else if identity u then compact acc r
          else compact (u :: acc) r
      end
  end.

Definition deduplicate_diff (diff : list (update V)) : option (list (update V)) :=
  match drop_identities (stable_sort diff) with
  | [] => Some []
  | u :: r => option_map (@rev (update V)) (compact [u] r)
  end.

End Dedup.
