(** Model of [Update] (array.hpp:174-238) and of [ArrayNodeStateData],
    [ScalarNodeStateData] (src/nodes/_state.hpp:32-206). *)
From Verif Require Import Base.
Set Implicit Arguments.

(** [Update] (array.hpp:174-238).  The NaN "nothing" (array.hpp:233) is [None].
    Simplification: the index is a [nat] (a negative index is undefined behaviour at
    every use). *)
Record update (V : Type) := Upd { uidx : nat; uold : option V; uval : option V }.
Arguments Upd {V}.

Section Updates.
Context {V : Type}.

(** [Update::placement], array.hpp:181-183. *)
Definition placement (i : nat) (v : V) : update V := Upd i None (Some v).
(** [Update::removal], array.hpp:188-190. *)
Definition removal (i : nat) (old : V) : update V := Upd i (Some old) None.
(** The three-argument constructor applied to two proper numbers, array.hpp:175. *)
Definition change (i : nat) (old v : V) : update V := Upd i (Some old) (Some v).

(** [placed], [removed], [null]: array.hpp:209-221. *)
Definition placed (u : update V) : bool := match uold u with None => true | _ => false end.
Definition removed (u : update V) : bool := match uval u with None => true | _ => false end.
Definition unull (u : update V) : bool := placed u && removed u.

End Updates.

Section ArrayNodeStateData.
Context {V : Type}.
(** [veqb] is C++ [==] on numbers that are not NaN; [vpad] is the value that
    [std::vector::resize] pads with (0.0). *)
Variable veqb : V -> V -> bool.
Variable vpad : V.

(** _state.hpp:184-190. *)
Record adata := AData { abuf : list V; aupd : list (update V); aprev : nat }.

(** Constructor, _state.hpp:34-35. *)
Definition a_init (values : list V) : adata :=
  {| abuf := values; aupd := []; aprev := length values |}.

(** The overlap loop of [assign], _state.hpp:45-53, starting at [index]. Returns the new
    buffer prefix and the emitted updates. *)
Fixpoint assign_overlap (index : nat) (bs vs : list V) : list V * list (update V) :=
  match bs, vs with
  | b :: bs', v :: vs' =>
      let (r, us) := assign_overlap (S index) bs' vs' in
      if veqb b v then (b :: r, us)
      else (v :: r, change index b v :: us)
  | _, _ => ([], [])
  end.

(** The removal loop of [assign], _state.hpp:56-61: walk [index] from size-1 down to
    [overlap], here as a traversal of the reversed excess. *)
Fixpoint assign_removals (top : nat) (excess_rev : list V) : list (update V) :=
  match excess_rev with
  | [] => []
  | b :: r => removal (top - 1) b :: assign_removals (top - 1) r
  end.

(** The placement loop of [assign], _state.hpp:65-72. *)
Fixpoint assign_placements (index : nat) (vs : list V) : list (update V) :=
  match vs with
  | [] => []
  | v :: r => placement index v :: assign_placements (S index) r
  end.

(** [assign], _state.hpp:39-75. *)
Definition a_assign (d : adata) (values : list V) : adata * bool :=
  let overlap := Nat.min (length (abuf d)) (length values) in
  let (prefix, us1) := assign_overlap 0 (abuf d) values in
  let us2 := assign_removals (length (abuf d)) (rev (skipn overlap (abuf d))) in
  let us3 := assign_placements overlap (skipn overlap values) in
  let upd := aupd d ++ us1 ++ us2 ++ us3 in
  ({| abuf := prefix ++ skipn overlap values; aupd := upd; aprev := aprev d |},
   match upd with [] => false | _ => true end).

(** [commit], _state.hpp:80-83. *)
Definition a_commit (d : adata) : adata :=
  {| abuf := abuf d; aupd := []; aprev := length (abuf d) |}.

(** [emplace_back], _state.hpp:93-97. *)
Definition a_push (d : adata) (v : V) : adata * bool :=
  ({| abuf := abuf d ++ [v]; aupd := aupd d ++ [placement (length (abuf d)) v];
      aprev := aprev d |}, true).

(** [exchange], _state.hpp:101-113.  [None]: an index out of range (assertion /
    undefined behaviour). *)
Definition a_exchange (d : adata) (i j : nat) : option (adata * bool) :=
  match nth_error (abuf d) i, nth_error (abuf d) j with
  | Some bi, Some bj =>
      if i =? j then Some (d, false)
      else if veqb bi bj then Some (d, false)
      else Some ({| abuf := lset j bi (lset i bj (abuf d));
                    aupd := aupd d ++ [change i bi bj; change j bj bi];
                    aprev := aprev d |}, true)
  | _, _ => None
  end.

(** [get], _state.hpp:116-119. *)
Definition a_get (d : adata) (i : nat) : option V := nth_error (abuf d) i.

(** [pop_back], _state.hpp:123-128.  [None]: empty buffer (assertion). *)
Definition a_pop (d : adata) : option (adata * bool) :=
  match nth_error (abuf d) (length (abuf d) - 1) with
  | Some b => Some ({| abuf := firstn (length (abuf d) - 1) (abuf d);
                       aupd := aupd d ++ [removal (length (abuf d) - 1) b];
                       aprev := aprev d |}, true)
  | None => None
  end.

(** [std::vector::resize]; cells are doubles, [None] being NaN. *)
Definition resize (n : nat) (l : list (option V)) : list (option V) :=
  firstn n l ++ repeat (Some vpad) (n - length l).

(** Loop body of [revert], _state.hpp:134-138. *)
Definition undo1 (size : nat) (u : update V) (buf : list (option V)) : list (option V) :=
  if size <=? uidx u then buf else lset (uidx u) (uold u) buf.

(** [revert], _state.hpp:130-140.  The walk is over the reversed updates, i.e. a right
    fold.  [None]: a NaN remained in the buffer. *)
Definition a_revert (d : adata) : option adata :=
  let buf0 := resize (aprev d) (map Some (abuf d)) in
  match all_some (fold_right (undo1 (aprev d)) buf0 (aupd d)) with
  | Some buf => Some {| abuf := buf; aupd := []; aprev := aprev d |}
  | None => None
  end.

(** [set], _state.hpp:143-153. *)
Definition a_set (d : adata) (i : nat) (v : V) : option (adata * bool) :=
  match nth_error (abuf d) i with
  | Some old =>
      if veqb old v then Some (d, false)
      else Some ({| abuf := lset i v (abuf d); aupd := aupd d ++ [change i old v];
                    aprev := aprev d |}, true)
  | None => None
  end.

(** [size_diff], _state.hpp:155-157. *)
Definition a_size_diff (d : adata) : Z := (Z.of_nat (length (abuf d)) - Z.of_nat (aprev d))%Z.

(** Loop body of [update], _state.hpp:163-178.  [None]: an assertion fails. *)
Definition a_update1 (d : adata) (u : update V) : option adata :=
  match uval u with
  | None =>
      match nth_error (abuf d) (uidx u) with
      | Some b =>
          if S (uidx u) =? length (abuf d) then
            Some {| abuf := firstn (length (abuf d) - 1) (abuf d);
                    aupd := aupd d ++ [removal (uidx u) b]; aprev := aprev d |}
          else None
      | None => None
      end
  | Some v =>
      match uold u with
      | None =>
          if uidx u =? length (abuf d) then
            Some {| abuf := abuf d ++ [v]; aupd := aupd d ++ [placement (uidx u) v];
                    aprev := aprev d |}
          else None
      | Some _ =>
          match nth_error (abuf d) (uidx u) with
          | Some b => Some {| abuf := lset (uidx u) v (abuf d);
                              aupd := aupd d ++ [change (uidx u) b v]; aprev := aprev d |}
          | None => None
          end
      end
  end.

(** [update], _state.hpp:162-181. *)
Definition a_update (d : adata) (us : list (update V)) : option (adata * bool) :=
  match ofold a_update1 d us with
  | Some d' => Some (d', match aupd d' with [] => false | _ => true end)
  | None => None
  end.

(** [ScalarNodeStateData], _state.hpp:193-206: one update (0, old, value). *)
Record sdata := SData { sold : V; sval : V }.
Definition s_init (v : V) : sdata := {| sold := v; sval := v |}.
Definition s_commit (d : sdata) : sdata := {| sold := sval d; sval := sval d |}.
Definition s_revert (d : sdata) : sdata := {| sold := sold d; sval := sold d |}.
Definition s_set (d : sdata) (v : V) : sdata := {| sold := sold d; sval := v |}.
Definition s_diff (d : sdata) : list (update V) :=
  if veqb (sold d) (sval d) then [] else [change 0 (sold d) (sval d)].

(** All mutations a node can perform on its state, as one operation type. *)
Inductive aop :=
| OSet (i : nat) (v : V) | OExchange (i j : nat) | OPush (v : V) | OPop
| OAssign (vs : list V) | OUpdate (us : list (update V)) | OCommit | ORevert.

Definition a_step (d : adata) (o : aop) : option (adata * bool) :=
  match o with
  | OSet i v => a_set d i v
  | OExchange i j => a_exchange d i j
  | OPush v => Some (a_push d v)
  | OPop => a_pop d
  | OAssign vs => Some (a_assign d vs)
  | OUpdate us => a_update d us
  | OCommit => Some (a_commit d, true)
  | ORevert => option_map (fun d' => (d', true)) (a_revert d)
  end.

Definition a_run (d : adata) (os : list aop) : option adata :=
  ofold (fun d o => option_map fst (a_step d o)) d os.

End ArrayNodeStateData.
Arguments AData {V}.
