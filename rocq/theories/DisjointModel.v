(** Model of [DisjointBitSetsNodeData]/[DisjointBitSetsNode] and
    [DisjointListStateData]/[DisjointListsNode]: src/nodes/collections.cpp:225-746;
    nodes/collections.hpp:113-287. *)
From Verif Require Import Base Num StateDataModel CollectionsModel.

(** *** Disjoint bit sets *)

(** collections.cpp:311-314. *)
Record bsdata := BSData { bsprim : nat; bsnum : nat; bsdat : list num; bsdiffs : list (list (update num)) }.

(** Constructor checks, collections.cpp:317-321; negative sizes are excluded by [nat]. *)
Definition bs_node (primary num_sets : nat) : option (nat * nat) :=
  if num_sets <? 1 then None else Some (primary, num_sets).

(** Default constructor, collections.cpp:226-235; [None]: write past the end. *)
Definition bs_init_default (n m : nat) : option bsdata :=
  match ofold (fun l i => if i <? length l then Some (lset i (zq 1) l) else None)
              (repeat (zq 0) (n * m)) (seq 0 n) with
  | Some l => Some (BSData n m l (repeat [] m))
  | None => None
  end.

(** Constructor with contents, collections.cpp:237-267.  The total is kept in [num] instead of
    [ssize_t]; every summand is 0 or 1 there. *)
Definition bs_binary (x : num) : bool := qeqb x (zq 0) || qeqb x (zq 1).
Definition bs_init (n m : nat) (contents : list (list num)) : res bsdata :=
  if negb (length contents =? m) then Throw
  else if negb (forallb (fun r => (length r =? n) && forallb bs_binary r) contents) then Throw
  else if negb (qeqb (fold_left Qcplus (concat contents) (zq 0)) (nq n)) then Throw
  else Ok (BSData n m (concat contents) (repeat [] m)).

(** [swap_between_sets], collections.cpp:269-278.  [None]: out of range access. *)
Definition bs_swap (d : bsdata) (from to el : nat) : option bsdata :=
  let p0 := from * bsprim d + el in
  let p1 := to * bsprim d + el in
  match nth_error (bsdat d) p0, nth_error (bsdat d) p1 with
  | Some x0, Some x1 =>
      if qeqb x0 x1 then Some d else
      match nth_error (bsdiffs d) from with
      | None => None
      | Some df =>
          let diffs1 := lset from (df ++ [change el x0 x1]) (bsdiffs d) in
          match nth_error diffs1 to with
          | None => None
          | Some dt =>
              Some (BSData (bsprim d) (bsnum d) (lset p1 x0 (lset p0 x1 (bsdat d)))
                           (lset to (dt ++ [change el x1 x0]) diffs1))
          end
      end
  | _, _ => None
  end.

(** [get_containing_set_index], collections.cpp:280-288.  [None]: [unreachable()]. *)
Fixpoint bs_find (n : nat) (data : list num) (el : nat) (sets : list nat) : option nat :=
  match sets with
  | [] => None
  | s :: r => match nth_error data (s * n + el) with
              | Some x => if qeqb x (zq 0) then bs_find n data el r else Some s
              | None => None
              end
  end.
Definition bs_containing (d : bsdata) (el : nat) : option nat :=
  bs_find (bsprim d) (bsdat d) el (seq 0 (bsnum d)).

(** [commit], collections.cpp:290-294. *)
Definition bs_commit (d : bsdata) : bsdata :=
  BSData (bsprim d) (bsnum d) (bsdat d) (map (fun _ => []) (bsdiffs d)).

(** [revert], collections.cpp:300-307. *)
Definition bs_undo1 (off : nat) (u : update num) (data : option (list num)) : option (list num) :=
  match data, uold u with
  | Some l, Some o => if off + uidx u <? length l then Some (lset (off + uidx u) o l) else None
  | _, _ => None
  end.
Definition bs_undo_set (n : nat) (diffs : list (list (update num))) (data : list num) (s : nat)
  : option (list num) :=
  match nth_error diffs s with
  | Some us => fold_right (bs_undo1 (s * n)) (Some data) us
  | None => None
  end.
Definition bs_revert (d : bsdata) : option bsdata :=
  match ofold (bs_undo_set (bsprim d) (bsdiffs d)) (bsdat d) (seq 0 (bsnum d)) with
  | Some data => Some (BSData (bsprim d) (bsnum d) data (map (fun _ => []) (bsdiffs d)))
  | None => None
  end.

(** What the [DisjointBitSetNode] of index [s] exposes, collections.cpp:309, 360-370; its size is
    the constant [primary_set_size] (collections.hpp:154-196). *)
Definition bs_view (d : bsdata) (s : nat) : list num :=
  firstn (bsprim d) (skipn (s * bsprim d) (bsdat d)).
Definition bs_diff (d : bsdata) (s : nat) : option (list (update num)) := nth_error (bsdiffs d) s.

Inductive bsop := BSwap (from to el : nat) | BCommit | BRevert.
Definition bs_step (d : bsdata) (o : bsop) : option bsdata :=
  match o with
  | BSwap f t e => bs_swap d f t e
  | BCommit => Some (bs_commit d)
  | BRevert => bs_revert d
  end.
Definition bs_run (d : bsdata) (os : list bsop) : option bsdata := ofold bs_step d os.

(** [default_move], collections.cpp:343-348, with its three draws; with no items the distribution
    has bounds (0, SIZE_MAX) and the drawn element is arbitrary. *)
Definition bs_default_move (d : bsdata) (f t e : nat) : option bsdata := bs_swap d f t e.

(** *** Disjoint lists *)

Section Lists.
Context {V : Type}.

(** One list with its updates and previous size.  The struct of vectors [lists],
    [all_list_updates], [previous_list_sizes] (collections.cpp:577-580) is modelled as one vector
    of triples [adata]; [list_sizes] is scratch space for [shape] and left out. *)
Notation ldata := (@adata V).

(** [rotate_in_list] on one list, collections.cpp:445-465, after the early exit of line 643. *)
Definition l_rotate (d : ldata) (dest src : nat) : option ldata :=
  if dest =? src then Some d else
  if negb ((src <? length (abuf d)) && (dest <? length (abuf d))) then None else
  match nth_error (abuf d) src with
  | None => None
  | Some p => match rot_loop (rot_indices dest src) p (abuf d) [] with
              | Some (el, us) => Some (AData el (aupd d ++ us) (aprev d))
              | None => None
              end
  end.

(** [swap_in_list], collections.cpp:508-518, after the early exit of line 654. *)
Definition l_swap (d : ldata) (i j : nat) : option ldata :=
  if i =? j then Some d else
  match nth_error (abuf d) i, nth_error (abuf d) j with
  | Some x, Some y =>
      Some (AData (lset j x (lset i y (abuf d))) (aupd d ++ [change i x y; change j y x]) (aprev d))
  | _, _ => None
  end.

(** Deletion loop of [pop_to_list], collections.cpp:531-537. *)
Fixpoint del_loop (idxs : list nat) (l : list V) (us : list (update V))
  : option (list V * list (update V)) :=
  match idxs with
  | [] => Some (l, us)
  | i :: r => match nth_error l i, nth_error l (S i) with
              | Some x, Some y => del_loop r (lset i y l) (us ++ [change i x y])
              | _, _ => None
              end
  end.
(** First half of [pop_to_list], collections.cpp:525-541: returns the popped value. *)
Definition l_pop (d : ldata) (i : nat) : option (V * ldata) :=
  match nth_error (abuf d) i with
  | None => None
  | Some value =>
      let last := length (abuf d) - 1 in
      match del_loop (seq i (last - i)) (abuf d) (aupd d) with
      | None => None
      | Some (l, us) =>
          match nth_error l last with
          | None => None
          | Some x => Some (value, AData (firstn last l) (us ++ [removal last x]) (aprev d))
          end
      end
  end.

(** Insertion loop of [pop_to_list], collections.cpp:544-547. *)
Fixpoint ins_loop (idxs : list nat) (value : V) (l : list V) (us : list (update V))
  : option (V * list V * list (update V)) :=
  match idxs with
  | [] => Some (value, l, us)
  | i :: r => match nth_error l i with
              | Some x => ins_loop r x (lset i value l) (us ++ [change i x value])
              | None => None
              end
  end.
(** Second half of [pop_to_list], collections.cpp:543-550. *)
Definition l_insert (d : ldata) (j : nat) (value : V) : option ldata :=
  match ins_loop (seq j (length (abuf d) - j)) value (abuf d) (aupd d) with
  | None => None
  | Some (v, l, us) => Some (AData (l ++ [v]) (us ++ [placement (length l) v]) (aprev d))
  end.

(** [commit] on one list, collections.cpp:435-443: the previous size is stored only if there are
    updates. *)
Definition l_commit (d : ldata) : ldata :=
  match aupd d with
  | [] => d
  | _ => AData (abuf d) [] (length (abuf d))
  end.

(** Body of the [revert] loop, collections.cpp:558-566: [std::vector::erase], [insert] or
    assignment. *)
Definition l_undo1 (u : update V) (l : option (list V)) : option (list V) :=
  match l with
  | None => None
  | Some l =>
      match uold u, uval u with
      | None, _ => if uidx u <? length l then Some (firstn (uidx u) l ++ skipn (S (uidx u)) l) else None
      | Some o, None => if uidx u <=? length l then Some (firstn (uidx u) l ++ o :: skipn (uidx u) l) else None
      | Some o, Some _ => if uidx u <? length l then Some (lset (uidx u) o l) else None
      end
  end.
(** [revert] on one list, collections.cpp:555-568; the previous size is left alone. *)
Definition l_revert (d : ldata) : option ldata :=
  match fold_right l_undo1 (Some (abuf d)) (aupd d) with
  | Some l => Some (AData l [] (aprev d))
  | None => None
  end.

Notation dldata := (list (@adata V)).

(** Apply an operation to one list of the vector. *)
Definition on_list (d : dldata) (k : nat) (f : ldata -> option ldata) : option dldata :=
  match nth_error d k with
  | Some x => match f x with Some y => Some (lset k y d) | None => None end
  | None => None
  end.

(** [pop_to_list], collections.cpp:520-550, with the assertions of 525-526 (both sizes are read
    before the removal, so for [from = to] the insertion position may exceed the shortened list by
    one). *)
Definition dl_pop_to (d : dldata) (from i to j : nat) : option dldata :=
  match nth_error d from, nth_error d to with
  | Some x, Some t =>
      if negb ((i <? length (abuf x)) && (j <=? length (abuf t))) then None else
      match l_pop x i with
      | None => None
      | Some (value, x') => on_list (lset from x' d) to (fun t => l_insert t j value)
      end
  | _, _ => None
  end.

Definition dl_rotate (d : dldata) (k dest src : nat) := on_list d k (fun x => l_rotate x dest src).
Definition dl_swap (d : dldata) (k i j : nat) := on_list d k (fun x => l_swap x i j).
Definition dl_commit (d : dldata) : dldata := map l_commit d.
Definition dl_revert (d : dldata) : option dldata := all_some (map l_revert d).

End Lists.

(** [set_state], collections.cpp:471-506: the same three loops as [ArrayNodeStateData::assign]
    (_state.hpp:39-75), on one list. *)
Definition dl_set (d : list (@adata num)) (k : nat) (values : list num) : option (list (@adata num)) :=
  on_list d k (fun x => Some (fst (a_assign qeqb x values))).

(** Constructor checks, collections.cpp:583-587. *)
Definition dl_node (primary num_lists : nat) : option (nat * nat) :=
  if num_lists <? 1 then None else Some (primary, num_lists).

(** Default constructor, collections.cpp:373-392. *)
Definition dl_init_default (n m : nat) : option (list (@adata num)) :=
  on_list (repeat (AData [] [] 0) m) 0 (fun _ => Some (AData (qrange n) [] n)).

(** Constructor with contents, collections.cpp:394-433.  [size_t(el)] is truncation; for
    negative [el] the value is not used.  The scan, in order, keeps the set of items seen. *)
Definition dl_check1 (n : nat) (acc : option (list Z)) (el : num) : option (list Z) :=
  match acc with
  | None => None
  | Some seen =>
      if qltb el 0 || negb (qeqb (zq (qtrunc el)) el) then None
      else if (Z.of_nat n <=? qtrunc el)%Z then None
      else if existsb (Z.eqb (qtrunc el)) seen then None
      else Some (qtrunc el :: seen)
  end.
Definition dl_init (n m : nat) (contents : list (list num)) : res (list (@adata num)) :=
  if negb (length contents =? m) then Throw
  else match fold_left (fun acc l => fold_left (dl_check1 n) l acc) contents (Some []) with
       | None => Throw
       | Some seen => if negb (length seen =? n) then Throw
                      else Ok (map (fun l => AData l [] (length l)) contents)
       end.

(** What the [DisjointListNode]s expose, collections.cpp:712-746. *)
Definition dl_view (d : list (@adata num)) : list (list num) := map (fun x => abuf x) d.
Definition l_size_diff (x : @adata num) : Z := (Z.of_nat (length (abuf x)) - Z.of_nat (aprev x))%Z.

Inductive dlop :=
| DRotate (k dest src : nat) | DSwap (k i j : nat) | DPop (from i to j : nat)
| DSet (k : nat) (values : list num) | DCommit | DRevert.
Definition dl_step (d : list (@adata num)) (o : dlop) : option (list (@adata num)) :=
  match o with
  | DRotate k dest src => dl_rotate d k dest src
  | DSwap k i j => dl_swap d k i j
  | DPop f i t j => dl_pop_to d f i t j
  | DSet k values => dl_set d k values
  | DCommit => Some (dl_commit d)
  | DRevert => dl_revert d
  end.
Definition dl_run (d : list (@adata num)) (os : list dlop) : option (list (@adata num)) := ofold dl_step d os.

(** Weighted choice of the list to pop from, collections.cpp:670-684: [draw k] is the number in
    [0,1) drawn for list [k].  Simplification: exact division. *)
Fixpoint dl_choose (draw : nat -> num) (k : nat) (sizes : list nat) (total : nat) (chosen : nat) : nat :=
  match sizes with
  | [] => chosen
  | s :: r =>
      if 0 <? s then
        dl_choose draw (S k) r (total + s)
          (if qleb (draw k) (nq s / nq (total + s))%Qc then k else chosen)
      else dl_choose draw (S k) r total chosen
  end.
(** [default_move], collections.cpp:665-698, with its draws [list_j], [a], [b]. *)
Definition dl_default_move (d : list (@adata num)) (draw : nat -> num) (list_j a b : nat) : option (list (@adata num)) :=
  let list_i := dl_choose draw 0 (map (fun x => length (abuf x)) d) 0 0 in
  if list_i =? list_j then dl_swap d list_i a b else dl_pop_to d list_i a list_j b.
