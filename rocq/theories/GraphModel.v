(** Model of [Graph] and the graph part of [Node]: include/dwave-optimization/graph.hpp:72-337,
    src/graph.cpp. *)
From Verif Require Import Base.

(** The graph.  A node pointer is a [nat], the position of the node in an arena that is never
    reused; the members of [Node] (graph.hpp:297-306) are kept in lists indexed by it.
    [SuccessorView::index] (graph.hpp:206) is left out. *)
Record graph := Graph {
  gnodes : list nat;          (* nodes_ *)
  gdec : list nat;            (* decisions_ *)
  gobj : option nat;          (* objective_ptr_ *)
  gcons : list nat;           (* constraints_ *)
  gsorted : bool;             (* topologically_sorted_ *)
  gpred : list (list nat);    (* predecessors_ *)
  gsucc : list (list nat);    (* successors_ *)
  gtopo : list Z;             (* topological_index_ *)
  galive : list bool;         (* not yet destructed *)
  glisten : list bool;        (* expired_ptr_.use_count() > 1 *)
  gremov : list bool }.       (* removable(), graph.hpp:294 *)

Definition g_empty : graph := Graph [] [] None [] false [] [] [] [] [] [].

(** Left fold with exceptions. *)
Fixpoint rfold {A B} (f : A -> B -> res A) (a : A) (l : list B) : res A :=
  match l with
  | [] => Ok a
  | b :: r => match f a b with Ok a' => rfold f a' r | Throw => Throw | UB => UB end
  end.

Definition oget {A} (l : list (list A)) (n : nat) : list A := nth n l [].
Definition alive (g : graph) (n : nat) : bool := nth n (galive g) false.

(** [ptr->successors_.emplace_back(n)] for every predecessor, graph.hpp:246-253, 265-270. *)
Definition push_succ (n : nat) (succ : list (list nat)) (p : nat) : list (list nat) :=
  lset p (oget succ p ++ [n]) succ.

(** [Graph::emplace_node], graph.hpp:312-337, for a constructor that does all its checks before
    registering itself.  [preds] are live nodes ([UB] otherwise); a decision gets its index at once. *)
Definition emplace_node (g : graph) (dec removable : bool) (preds : list nat) : res graph :=
  if gsorted g then Throw else
  if negb (forallb (alive g) preds) then UB else
  let n := length (gpred g) in
  Ok (Graph (gnodes g ++ [n]) (if dec then gdec g ++ [n] else gdec g) (gobj g) (gcons g) false
            (gpred g ++ [preds]) (fold_left (push_succ n) preds (gsucc g ++ [[]]))
            (gtopo g ++ [if dec then Z.of_nat (length (gdec g)) else (-1)%Z])
            (galive g ++ [true]) (glisten g ++ [false]) (gremov g ++ [removable])).

(** [emplace_node] of a constructor that checks and registers its predecessors one after the other:
    [NaryOpNode] (mathematical.cpp:494-520) and [ConcatenateNode] (manipulation.cpp:43-51).  [ok p]
    tells whether predecessor [p] passes.  The second component is [true] on success; on an
    exception the half-built node is destructed and only what it did to others remains. *)
Definition emplace_incremental (g : graph) (ok : nat -> bool) (preds : list nat) : res (graph * bool) :=
  if gsorted g then Throw else
  if negb (forallb (alive g) preds) then UB else
  let n := length (gpred g) in
  let fix reg (ps : list nat) (done : list nat) (succ : list (list nat)) :=
    match ps with
    | [] => (done, succ, true)
    | p :: r => if ok p then reg r (done ++ [p]) (push_succ n succ p) else (done, succ, false)
    end in
  let '(done, succ, success) := reg preds [] (gsucc g ++ [[]]) in
  Ok (Graph (if success then gnodes g ++ [n] else gnodes g) (gdec g) (gobj g) (gcons g) false
            (gpred g ++ [done]) succ (gtopo g ++ [(-1)%Z])
            (galive g ++ [success]) (glisten g ++ [false]) (gremov g ++ [true]), success).

(** [NaryOpNode::add_node], mathematical.cpp:502-520, after its shape checks ([n] is not a decision:
    those have no such method). *)
Definition add_node (g : graph) (n p : nat) : res graph :=
  if negb (alive g n && alive g p) then UB else
  if existsb (Nat.eqb n) (gdec g) then UB else
  let tn := nth n (gtopo g) (-1)%Z in
  let tp := nth p (gtopo g) (-1)%Z in
  if (0 <=? tn)%Z && (0 <=? tp)%Z && (tn <? tp)%Z then Throw else
  Ok (Graph (gnodes g) (gdec g) (gobj g) (gcons g) (gsorted g)
            (lset n (oget (gpred g) n ++ [p]) (gpred g)) (push_succ n (gsucc g) p)
            (gtopo g) (galive g) (glisten g) (gremov g)).

(** *** topological sort *)

(** The recursive lambda [visit], graph.cpp:40-56.  State: the indices and [count].  [Throw]: the
    cycle exception; [UB]: destructed node, or recursion deeper than [fuel]. *)
Fixpoint visit (succ : list (list nat)) (alive : list bool) (fuel : nat) (n : nat)
  (st : list Z * Z) : res (list Z * Z) :=
  match fuel with
  | 0 => UB
  | S f =>
      if negb (nth n alive false) then UB else
      match nth_error (fst st) n with
      | None => UB
      | Some t =>
          if (0 <=? t)%Z then Ok st
          else if (t =? -2)%Z then Throw
          else match rfold (fun st m => visit succ alive f m st)
                           (lset n (-2)%Z (fst st), snd st) (rev (oget succ n)) with
               | Ok (tp, c) => Ok (lset n c tp, (c - 1)%Z)
               | Throw => Throw
               | UB => UB
               end
      end
  end.

(** [std::sort] of nodes by index, graph.cpp:70-74, 219-221 (insertion sort; the keys being distinct
    the result does not depend on the algorithm). *)
Definition tkey (tp : list Z) (n : nat) : Z := nth n tp (-1)%Z.
Fixpoint tinsert (tp : list Z) (n : nat) (l : list nat) : list nat :=
  match l with
  | [] => [n]
  | m :: r => if (tkey tp m <=? tkey tp n)%Z then m :: tinsert tp n r else n :: l
  end.
Definition tsort (tp : list Z) (l : list nat) : list nat := fold_left (fun acc n => tinsert tp n acc) l [].

(** [Graph::topological_sort], graph.cpp:32-77.  After the exception the indices are left
    half-assigned; the graph is not used further then. *)
Definition topological_sort (g : graph) : res graph :=
  if gsorted g then Ok g else
  match rfold (fun st n => visit (gsucc g) (galive g) (S (length (gtopo g))) n st)
              (gtopo g, (Z.of_nat (length (gnodes g)) - 1)%Z) (rev (gnodes g)) with
  | Ok (tp, _) => Ok (Graph (tsort tp (gnodes g)) (gdec g) (gobj g) (gcons g) true (gpred g) (gsucc g)
                            tp (galive g) (glisten g) (gremov g))
  | Throw => Throw
  | UB => UB
  end.

(** [Graph::reset_topological_sort], graph.cpp:79-91. *)
Definition reset_topological_sort (g : graph) : graph :=
  if negb (gsorted g) then g else
  Graph (gnodes g) (gdec g) (gobj g) (gcons g) false (gpred g) (gsucc g)
        (fold_left (fun tp n => lset n (-1)%Z tp) (skipn (length (gdec g)) (gnodes g)) (gtopo g))
        (galive g) (glisten g) (gremov g).

(** *** [Graph::remove_unused_nodes], graph.cpp:301-365 *)
Definition keep_mark : Z := (-2)%Z.

(** Marking, graph.cpp:312-338. *)
Definition mark_cons (k : nat) (cons : list nat) (tp : list Z) : list Z :=
  fold_left (fun tp n => if (tkey tp n <? Z.of_nat k)%Z then tp else lset n keep_mark tp) cons tp.
Definition mark_obj (k : nat) (obj : option nat) (tp : list Z) : list Z :=
  match obj with
  | Some n => if (Z.of_nat k <=? tkey tp n)%Z then lset n keep_mark tp else tp
  | None => tp
  end.
Definition mark_listen (listen : list bool) (ns : list nat) (tp : list Z) : list Z :=
  fold_left (fun tp n => if nth n listen false then lset n keep_mark tp else tp) ns tp.

(** One step of the backward walk, graph.cpp:341-356.  State: successors, alive flags. *)
Definition erase_succ (n : nat) (succ : list (list nat)) (p : nat) : list (list nat) :=
  lset p (filter (fun m => negb (m =? n)) (oget succ p)) succ.
Definition remove1 (tp : list Z) (remov : list bool) (pred : list (list nat))
  (st : list (list nat) * list bool) (n : nat) : list (list nat) * list bool :=
  let (succ, al) := st in
  if negb (nth n remov true) then st
  else if (tkey tp n =? keep_mark)%Z then st
  else if 0 <? length (oget succ n) then st
  else (fold_left (erase_succ n) (oget pred n) succ, lset n false al).

Definition remove_unused_nodes (g : graph) (ignore_listeners : bool) : res (graph * nat) :=
  match topological_sort g with
  | Throw => Throw
  | UB => UB
  | Ok g =>
      let k := length (gdec g) in
      let inter := skipn k (gnodes g) in
      let tp1 := mark_obj k (gobj g) (mark_cons k (gcons g) (gtopo g)) in
      let tp2 := if ignore_listeners then tp1 else mark_listen (glisten g) inter tp1 in
      let (succ, al) := fold_left (remove1 tp2 (gremov g) (gpred g)) (rev inter) (gsucc g, galive g) in
      let nodes := filter (fun n => nth n al false) (gnodes g) in
      Ok (reset_topological_sort
            (Graph nodes (gdec g) (gobj g) (gcons g) true (gpred g) succ tp2 al (glisten g) (gremov g)),
          length (gnodes g) - length nodes)
  end.

(** [set_objective], [add_constraint] (graph.cpp:169-189) after their checks of size and type, and
    an outside observer taking or dropping [expired_ptr()] (graph.hpp:236). *)
Definition set_objective (g : graph) (n : nat) : res graph :=
  if alive g n then Ok (Graph (gnodes g) (gdec g) (Some n) (gcons g) (gsorted g) (gpred g) (gsucc g)
                              (gtopo g) (galive g) (glisten g) (gremov g)) else UB.
Definition add_constraint (g : graph) (n : nat) : res graph :=
  if alive g n then Ok (Graph (gnodes g) (gdec g) (gobj g) (gcons g ++ [n]) (gsorted g) (gpred g) (gsucc g)
                              (gtopo g) (galive g) (glisten g) (gremov g)) else UB.
Definition set_listen (g : graph) (n : nat) (b : bool) : res graph :=
  if alive g n then Ok (Graph (gnodes g) (gdec g) (gobj g) (gcons g) (gsorted g) (gpred g) (gsucc g)
                              (gtopo g) (galive g) (lset n b (glisten g)) (gremov g)) else UB.

(** Everything that can happen to a graph; [GAddEdge] is [add_node]. *)
Inductive gop :=
| GDecision | GAdd (removable : bool) (preds : list nat) | GAddEdge (n p : nat)
| GSort | GReset | GRemove (ignore_listeners : bool)
| GObjective (n : nat) | GConstraint (n : nat) | GListen (n : nat) (b : bool).

Definition g_step (g : graph) (o : gop) : res graph :=
  match o with
  | GDecision => emplace_node g true true []
  | GAdd r ps => emplace_node g false r ps
  | GAddEdge n p => add_node g n p
  | GSort => topological_sort g
  | GReset => Ok (reset_topological_sort g)
  | GRemove il => match remove_unused_nodes g il with Ok (g', _) => Ok g' | Throw => Throw | UB => UB end
  | GObjective n => set_objective g n
  | GConstraint n => add_constraint g n
  | GListen n b => set_listen g n b
  end.

(** *** [Graph::descendants], graph.cpp:204-231.  The marks live in the state, indexed by
    topological index. *)
Definition tidx (g : graph) (n : nat) : option nat :=
  match nth_error (gtopo g) n with
  | Some t => if (t <? 0)%Z then None else Some (Z.to_nat t)
  | None => None
  end.

(** Inner loop, graph.cpp:211-216. *)
Fixpoint bfs_succ (g : graph) (ms : list nat) (marks : list bool) (added : list nat)
  : option (list bool * list nat) :=
  match ms with
  | [] => Some (marks, added)
  | m :: r =>
      match tidx g m with
      | None => None
      | Some i => match nth_error marks i with
                  | None => None
                  | Some true => bfs_succ g r marks added
                  | Some false => bfs_succ g r (lset i true marks) (added ++ [m])
                  end
      end
  end.

(** Outer loop, graph.cpp:208-217: [sources] is [explored ++ todo]. *)
Fixpoint bfs (g : graph) (fuel : nat) (marks : list bool) (explored todo : list nat)
  : option (list bool * list nat) :=
  match todo with
  | [] => Some (marks, explored)
  | n :: r =>
      match fuel with
      | 0 => None
      | S f => match bfs_succ g (oget (gsucc g) n) marks [] with
               | Some (marks', added) => bfs g f marks' (explored ++ [n]) (r ++ added)
               | None => None
               end
      end
  end.

(** Clearing of marks, graph.cpp:225-227. *)
Definition clear_marks (g : graph) (ns : list nat) (marks : list bool) : option (list bool) :=
  ofold (fun marks n => match tidx g n with
                        | Some i => if i <? length marks then Some (lset i false marks) else None
                        | None => None
                        end) marks ns.

Definition descendants (g : graph) (marks : list bool) (sources : list nat)
  : option (list bool * list nat) :=
  match bfs g (length sources + length (gnodes g)) marks [] sources with
  | None => None
  | Some (marks', ns) =>
      let ns' := tsort (gtopo g) ns in
      match clear_marks g ns' marks' with
      | Some marks'' => Some (marks'', ns')
      | None => None
      end
  end.

(** *** States *)
Section States.
Context {S : Type}.
(** What a node's [initialize_state] stores, given the states of its predecessors. *)
Variable ninit : nat -> list S -> S.

(** [state.resize(n)], graph.cpp:123-125. *)
Definition grow_state (n : nat) (st : list (option S)) : list (option S) :=
  st ++ repeat None (n - length st).

(** Calling [initialize_state] on one node: reads the states of the predecessors ([UB] if one is
    missing), writes its own. *)
Definition init_node (g : graph) (st : list (option S)) (n : nat) : res (list (option S)) :=
  match tidx g n with
  | None => UB
  | Some i =>
      match all_some (map (fun p => match tidx g p with
                                    | Some j => match nth_error st j with Some x => x | None => None end
                                    | None => None
                                    end) (oget (gpred g) n)) with
      | Some ss => if i <? length st then Ok (lset i (Some (ninit n ss)) st) else UB
      | None => UB
      end
  end.

(** [Graph::recursive_initialize], graph.cpp:115-135. *)
Fixpoint recursive_initialize (g : graph) (fuel : nat) (st : list (option S)) (n : nat)
  : res (list (option S)) :=
  match fuel with
  | 0 => UB
  | Datatypes.S f =>
      match tidx g n with
      | None => Throw
      | Some i =>
          let st := if length st <=? i then grow_state (i + 1) st else st in
          match nth_error st i with
          | Some (Some _) => Ok st
          | _ => match rfold (recursive_initialize g f) st (oget (gpred g) n) with
                 | Ok st' => init_node g st' n
                 | Throw => Throw
                 | UB => UB
                 end
          end
      end
  end.

(** [Graph::initialize_state(State&)], graph.cpp:104-113. *)
Definition initialize_state (g : graph) (st : list (option S)) : res (list (option S)) :=
  rfold (fun st i => match nth_error st i, nth_error (gnodes g) i with
                     | Some (Some _), _ => Ok st
                     | Some None, Some n => init_node g st n
                     | _, _ => UB
                     end) st (seq 0 (length (gnodes g))).

(** [Graph::recursive_reset], graph.cpp:137-156. *)
Fixpoint recursive_reset (g : graph) (fuel : nat) (st : list (option S)) (n : nat)
  : res (list (option S)) :=
  match fuel with
  | 0 => UB
  | Datatypes.S f =>
      match tidx g n with
      | None => Throw
      | Some i =>
          if length st <=? i then Ok st
          else rfold (fun st m => match tidx g m with
                                  | None => Ok st
                                  | Some _ => recursive_reset g f st m
                                  end) (lset i None st) (oget (gsucc g) n)
      end
  end.
End States.
