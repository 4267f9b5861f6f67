(** Model of [CollectionStateData], [CollectionNode], [ListNode], [SetNode]:
    src/nodes/collections.cpp:22-223, 748-794; nodes/collections.hpp:29-105, 289-319. *)
From Verif Require Import Base Num StateDataModel.

(** [CollectionStateData] members, collections.cpp:117-121. *)
Record cdata (V : Type) := CData {
  cel : list V;                 (* elements *)
  cprev : list (update V);      (* previous: the visible updates *)
  call : list (update V);       (* all_updates *)
  csize : nat;
  cpsize : nat }.               (* previous_size *)
Arguments CData {V}. Arguments cel {V}. Arguments cprev {V}. Arguments call {V}.
Arguments csize {V}. Arguments cpsize {V}.

Section Moves.
Context {V : Type}.

(** Constructors, collections.cpp:32-36 with [previous_size = size] (line 121). *)
Definition c_new (elements : list V) (size : nat) : cdata V := CData elements [] [] size size.

(** [commit], collections.cpp:38-42. *)
Definition c_commit (d : cdata V) : cdata V := CData (cel d) [] [] (csize d) (csize d).

(** [exchange], collections.cpp:44-62, after the [i == j] early exit of the node
    (collections.cpp:135-138).  [None]: assertion failure. *)
Definition c_exchange (d : cdata V) (i j : nat) : option (cdata V) :=
  if i =? j then Some d else
  match nth_error (cel d) i, nth_error (cel d) j with
  | Some x, Some y =>
      let el := lset j x (lset i y (cel d)) in
      let ui := change i x y in
      let uj := change j y x in
      let vis := if (i <? csize d) && (j <? csize d) then [ui; uj]
                 else if j <? csize d then [uj]
                 else if i <? csize d then [ui] else [] in
      Some (CData el (cprev d ++ vis) (call d ++ [ui; uj]) (csize d) (cpsize d))
  | _, _ => None
  end.

(** The loop body of [rotate] run over the index sequence [idxs], collections.cpp:71-83: swap
    [prev] with the element at [i] and record the change. *)
Fixpoint rot_loop (idxs : list nat) (prev : V) (el : list V) (us : list (update V))
  : option (list V * list (update V)) :=
  match idxs with
  | [] => Some (el, us)
  | i :: r => match nth_error el i with
              | Some x => rot_loop r x (lset i prev el) (us ++ [change i x prev])
              | None => None
              end
  end.

(** The two loops of [rotate], collections.cpp:70-84: indices dest..src upwards if src > dest,
    dest..src downwards if src < dest. *)
Definition rot_indices (dest src : nat) : list nat :=
  if dest <? src then seq dest (S (src - dest))
  else if src <? dest then rev (seq src (S (dest - src)))
  else [].

(** [rotate], collections.cpp:64-85 after the early exit of collections.cpp:140-143. *)
Definition c_rotate (d : cdata V) (dest src : nat) : option (cdata V) :=
  if src =? dest then Some d else
  if negb ((src <? csize d) && (dest <? csize d)) then None else
  match nth_error (cel d) src with
  | None => None
  | Some p =>
      match rot_loop (rot_indices dest src) p (cel d) [] with
      | Some (el, us) => Some (CData el (cprev d ++ us) (call d ++ us) (csize d) (cpsize d))
      | None => None
      end
  end.

(** [grow], collections.cpp:87-91. *)
Definition c_grow (d : cdata V) : option (cdata V) :=
  match nth_error (cel d) (csize d) with
  | Some x => Some (CData (cel d) (cprev d ++ [placement (csize d) x]) (call d)
                          (S (csize d)) (cpsize d))
  | None => None
  end.

(** [shrink], collections.cpp:107-111. *)
Definition c_shrink (d : cdata V) : option (cdata V) :=
  match csize d with
  | 0 => None
  | S k => match nth_error (cel d) k with
           | Some x => Some (CData (cel d) (cprev d ++ [removal k x]) (call d) k (cpsize d))
           | None => None
           end
  end.

(** [revert], collections.cpp:93-105; [all_updates] holds changes only, so [update.old] is a
    number ([None] if it were NaN). *)
Definition c_undo1 (u : update V) (el : option (list V)) : option (list V) :=
  match el, uold u with
  | Some l, Some o => Some (lset (uidx u) o l)
  | _, _ => None
  end.
Definition c_revert (d : cdata V) : option (cdata V) :=
  match fold_right c_undo1 (Some (cel d)) (call d) with
  | Some el => Some (CData el [] [] (cpsize d) (cpsize d))
  | None => None
  end.

(** What successors see: [buff] and [size], collections.cpp:126-129, 205-210; [size_diff],
    collections.cpp:217-223 (for a fixed-size node [csize = cpsize] always). *)
Definition c_view (d : cdata V) : list V := firstn (csize d) (cel d).
Definition c_size_diff (d : cdata V) : Z := (Z.of_nat (csize d) - Z.of_nat (cpsize d))%Z.

End Moves.

(** The constant part of a collection node; constructor checks collections.hpp:83-97 ([None]:
    [std::invalid_argument]; negative sizes are excluded by [nat]). *)
Record cnode := CNode { cmaxval : nat; cmin : nat; cmax : nat }.
Definition collection_node (max_value min_size max_size : nat) : option cnode :=
  if max_size <? min_size then None
  else if max_value <? max_size then None
  else Some (CNode max_value min_size max_size).
(** [dynamic()], from the shape given at collections.hpp:84. *)
Definition c_dynamic (n : cnode) : bool := negb (cmin n =? cmax n).

Definition nq (k : nat) : num := zq (Z.of_nat k).
Definition qrange (n : nat) : list num := map nq (seq 0 n).

(** [CollectionNode::grow], [shrink] with their assertions, collections.cpp:145-149, 199-203. *)
Definition cn_grow (n : cnode) (d : cdata num) : option (cdata num) :=
  if c_dynamic n && (csize d <? cmax n) then c_grow d else None.
Definition cn_shrink (n : cnode) (d : cdata num) : option (cdata num) :=
  if c_dynamic n && (cmin n <? csize d) then c_shrink d else None.

(** Truncation towards zero, C++ [ssize_t(val)].  Simplification: no range limit. *)
Definition qtrunc (x : num) : Z := if qleb 0 x then Qfloor x else Qceiling x.

(** Insertion of the contents into [std::unordered_set<double>], collections.cpp:171. *)
Definition qmem (x : num) (s : list num) : bool := existsb (qeqb x) s.
Definition qset (l : list num) : list num := fold_left (fun s x => if qmem x s then s else x :: s) l [].

(** [CollectionNode::initialize_state(State&, std::vector<double>)], collections.cpp:151-185. *)
Definition collection_init (n : cnode) (contents : list num) : res (cdata num) :=
  if length contents <? cmin n then Throw
  else if cmax n <? length contents then Throw
  else if existsb (fun v => negb (qeqb (zq (qtrunc v)) v) || qltb v 0
                            || qleb (nq (cmaxval n)) v) contents then Throw
  else let s := qset contents in
       if length s <? length contents then Throw
       else Ok (c_new (contents ++ filter (fun v => negb (qmem v s)) (qrange (cmaxval n)))
                      (length s)).

(** [ListNode::initialize_state], collections.cpp:756-763 and 23-30. *)
Definition list_init_default (n : cnode) : cdata num := c_new (qrange (cmax n)) (cmax n).
(** [SetNode::initialize_state], collections.cpp:786-794. *)
Definition set_init_default (n : cnode) : cdata num := c_new (qrange (cmaxval n)) (cmin n).

(** Everything a caller can do. *)
Inductive cop := CExchange (i j : nat) | CRotate (dest src : nat) | CGrow | CShrink | CCommit | CRevert.

Definition c_step (n : cnode) (d : cdata num) (o : cop) : option (cdata num) :=
  match o with
  | CExchange i j => c_exchange d i j
  | CRotate dest src => c_rotate d dest src
  | CGrow => cn_grow n d
  | CShrink => cn_shrink n d
  | CCommit => Some (c_commit d)
  | CRevert => c_revert d
  end.
Definition c_run (n : cnode) (d : cdata num) (os : list cop) : option (cdata num) :=
  ofold (c_step n) d os.

(** [ListNode::default_move], collections.cpp:748-754, with the two draws; on an empty list
    [size - 1] wraps around and any index may be drawn: undefined. *)
Definition list_default_move (d : cdata num) (i j : nat) : option (cdata num) :=
  if csize d =? 0 then None else c_exchange d i j.

(** [SetNode::default_move], collections.cpp:765-784, with the coin and the drawn index. *)
Definition set_default_move (n : cnode) (d : cdata num) (coin : bool) (k : nat)
  : option (cdata num) :=
  if (csize d <? cmax n) && coin then
    match c_exchange d (csize d) k with
    | Some d1 => cn_grow n d1
    | None => None
    end
  else if cmin n <? csize d then cn_shrink n d
  else Some d.
