(** Disjoint lists and bit-sets as nodes of a model: [DisjointListsNode] and [DisjointBitSetsNode] are decisions that are
    not arrays, and their successors [DisjointListNode] and [DisjointBitSetNode] read the parent's state directly
    (src/nodes/collections.cpp:225-746, nodes/collections.hpp:113-287).  In ProposeModel a node reads of a predecessor
    only a [pin], so here the contents, the logs and the previous sizes in the parent's state are written into one, as
    numbers, and read from it by the successors.  Simplification: that encoding, which is not in the code. *)
From Verif Require Import Base Num SliceModel StateDataModel NodeSpec NodeLib NumbersModel CollectionsModel DisjointModel ViewModel ProposeModel.

(** Lists of numbers one after another, each after its length; the [i]-th of them. *)
Definition wire (ls : list (list num)) : list num := flat_map (fun l => nq (length l) :: l) ls.
Fixpoint unwire (i : nat) (w : list num) : option (list num) :=
  match w with
  | [] => None
  | k :: r => let n := Z.to_nat (qtrunc k) in
      if length r <? n then None else match i with 0 => Some (firstn n r) | S j => unwire j (skipn n r) end
  end.
(** Five numbers for an update. *)
Definition wire_opt (o : option num) : list num := match o with Some x => [zq 1; x] | None => [zq 0; zq 0] end.
Definition wire_update (u : update num) : list num := nq (uidx u) :: wire_opt (uold u) ++ wire_opt (uval u).
Definition unwire_opt (f x : num) : option num := if q2b f then Some x else None.
Fixpoint unwire_updates (w : list num) : option (list (update num)) :=
  match w with
  | [] => Some []
  | i :: f :: o :: g :: v :: r => option_map (cons (Upd (Z.to_nat (qtrunc i)) (unwire_opt f o) (unwire_opt g v))) (unwire_updates r)
  | _ => None
  end.

(** Writing a list from nothing, and clearing it. *)
Definition placed (l : list num) : list (update num) := map (fun ix => placement (fst ix) (snd ix)) (combine (seq 0 (length l)) l).
Definition cleared (l : list num) : list (update num) := rev (map (fun ix => removal (fst ix) (snd ix)) (combine (seq 0 (length l)) l)).

(** What the parent offers: the contents; and, if anything is pending, a log that clears the old contents, writes and
    clears the previous sizes and the logs of the parts, and writes the contents. *)
Definition notes (prevs : list nat) (logs : list (list (update num))) : list num := wire (map nq prevs :: map (flat_map wire_update) logs).
Definition quiet (new : list (list num)) (prevs : list nat) (logs : list (list (update num))) : bool :=
  forallb (fun us => match us with [] => true | _ => false end) logs && if list_eq_dec Nat.eq_dec prevs (map (@length num) new) then true else false.
Definition group_pin (old new : list (list num)) (prevs : list nat) (logs : list (list (update num))) : pin num :=
  if quiet new prevs logs then still (wire new)
  else {| pview := wire new; pdiff := cleared (wire old) ++ placed (notes prevs logs) ++ cleared (notes prevs logs) ++ placed (wire new);
          psdiff := (Z.of_nat (length (wire new)) - Z.of_nat (length (wire old)))%Z |}.

(** What part [i] reads: [buff], [diff], [size], [size_diff], collections.cpp:360-370, 712-746. *)
Fixpoint after_removed (us : list (update num)) : list (update num) :=
  match us with u :: r => match uval u with None => after_removed r | Some _ => us end | [] => [] end.
Fixpoint first_placed (us : list (update num)) : list num :=
  match us with u :: r => match uold u, uval u with None, Some x => x :: first_placed r | _, _ => [] end | [] => [] end.
Definition part_pin (i : nat) (p : pin num) : option (pin num) :=
  match unwire i (pview p) with
  | None => None
  | Some v =>
      match pdiff p with
      | [] => Some (still v)
      | us => let w := first_placed (after_removed us) in
          match unwire 0 w, unwire (S i) w with
          | Some prevs, Some log =>
              match nth_error prevs i, unwire_updates log with
              | Some k, Some us' => Some {| pview := v; pdiff := us'; psdiff := (Z.of_nat (length v) - qtrunc k)%Z |}
              | _, _ => None
              end
          | _, _ => None
          end
      end
  end.
(** [DisjointListNode], [DisjointBitSetNode]: no state of their own; [commit], [revert], [update] are empty
    (collections.hpp:176-178, 267-269), and [initialize_state] of [Node] leaves a state without data (graph.cpp:369-375). *)
Definition part_vnode (shape : list Z) (i : nat) : vnode num :=
  {| vn_shape := shape; vn_pre := [[-1]%Z]; vn_ST := unit; vn_init := fun _ => Ok tt;
     vn_out := fun _ ps => match ps with [p] => part_pin i p | _ => None end;
     vn_prop := fun s _ => Ok s; vn_commit := fun s _ => Ok s; vn_revert := fun s _ => Ok s |}.

(** The assertions in [DisjointListsNode::propagate], collections.cpp:613-631: every item within range and found
    exactly once.  [items[item]] converts the double to an index. *)
Definition lists_assert (n : nat) (ls : list (list num)) : bool :=
  match fold_left (fun acc x => match acc with
                                | None => None
                                | Some seen => if qltb x 0 || qleb (nq n) x || existsb (Z.eqb (qtrunc x)) seen then None else Some (qtrunc x :: seen)
                                end) (concat ls) (Some []) with
  | Some seen => forallb (fun k => existsb (Z.eqb (Z.of_nat k)) seen) (seq 0 n)
  | None => false
  end.
(** [DisjointListsNode], collections.cpp:589-634. *)
Definition lists_vnode (dbg : bool) (n k : nat) : vnode num :=
  {| vn_shape := [-1]%Z; vn_pre := []; vn_ST := list (@adata num); vn_init := fun _ => of_opt (dl_init_default n k);
     vn_out := fun d _ => match dl_revert d with
                          | Some d0 => Some (group_pin (dl_view d0) (dl_view d) (map (fun x => aprev x) d) (map (fun x => aupd x) d))
                          | None => None
                          end;
     vn_prop := fun d _ => if dbg && negb (lists_assert n (dl_view d)) then UB else Ok d;
     vn_commit := fun d _ => Ok (dl_commit d); vn_revert := fun d _ => of_opt (dl_revert d) |}.
(** [DisjointBitSetsNode], collections.cpp:323-341. *)
Definition bs_rows (d : bsdata) : list (list num) := map (bs_view d) (seq 0 (bsnum d)).
Definition bits_vnode (n k : nat) : vnode num :=
  {| vn_shape := [-1]%Z; vn_pre := []; vn_ST := bsdata; vn_init := fun _ => of_opt (bs_init_default n k);
     vn_out := fun d _ => match bs_revert d with
                          | Some d0 => Some (group_pin (bs_rows d0) (bs_rows d) (repeat (bsprim d) (bsnum d)) (bsdiffs d))
                          | None => None
                          end;
     vn_prop := fun d _ => Ok d; vn_commit := fun d _ => Ok (bs_commit d); vn_revert := fun d _ => of_opt (bs_revert d) |}.
