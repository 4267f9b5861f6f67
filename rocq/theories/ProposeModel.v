(** Model of proposing a move: [Graph::propagate], [commit], [revert], [propose] (src/graph.cpp:233-299)
    and [Graph::initialize_state] (src/graph.cpp:104-113) over nodes with their states.  Simplifications:
    the state of a node is found by the node instead of by its topological index (C14 relates the two);
    every node is an array; the acceptance function does not change the state. *)
From Verif Require Import Base SliceModel StateDataModel NodeSpec NodeLib NumbersModel CollectionsModel GraphModel Num ViewModel.

(** A node that does not read its predecessors in [commit] and [revert]. *)
Definition lift {V} (N : node V) : vnode V :=
  {| vn_shape := nd_shape N; vn_pre := nd_pre N; vn_ST := nd_ST N; vn_init := nd_init N; vn_out := nd_out N;
     vn_prop := nd_prop N; vn_commit := fun s _ => Ok (nd_commit N s); vn_revert := fun s _ => nd_revert N s |}.

Section Propose.
Context {V : Type}.
(** Assertions compiled in. *)
Variable dbg : bool.
(** The class and parameters of each node; [g] has the links. *)
Variable N : nat -> vnode V.
Variable g : graph.

(** [State]: null until initialised. *)
Definition states := forall n : nat, option (vn_ST (N n)).
Definition sset (st : states) (n : nat) (x : vn_ST (N n)) : states :=
  fun m => match Nat.eq_dec n m with left e => Some (eq_rect n (fun k => vn_ST (N k)) x m e) | right _ => st m end.

(** What [view(state)], [diff(state)] and [size_diff(state)] of a node return; they may call those of its
    predecessors.  [fuel]: no deeper than the number of nodes. *)
Fixpoint pin_at (fuel : nat) (st : states) (n : nat) : option (pin V) :=
  match fuel with
  | 0 => None
  | S f => match st n, all_some (map (pin_at f st) (oget (gpred g) n)) with
           | Some s, Some ps => vn_out (N n) s ps
           | _, _ => None
           end
  end.
Definition pin_of (st : states) (n : nat) : option (pin V) := pin_at (length (gnodes g)) st n.
Definition inputs (st : states) (n : nat) : option (list (pin V)) := all_some (map (pin_of st) (oget (gpred g) n)).

(** A method called on one node, and on each of a list of nodes: graph.cpp:233-241, 247-250, 265-268. *)
Definition call1 (m : forall n, vn_ST (N n) -> list (pin V) -> res (vn_ST (N n))) (st : states) (n : nat) : res states :=
  match st n, inputs st n with
  | Some s, Some ps => rbind (m n s ps) (fun s' => Ok (sset st n s'))
  | _, _ => UB
  end.
Definition call_all (m : forall n, vn_ST (N n) -> list (pin V) -> res (vn_ST (N n))) (st : states) (ns : list nat) : res states :=
  rfold (call1 m) st ns.
(** The assertion that no updates are left, graph.cpp:252-258, 270-276. *)
Definition no_diff (st : states) (n : nat) : bool := match pin_of st n with Some p => match pdiff p with [] => true | _ => false end | None => false end.
Definition settled (r : res states) (ns : list nat) : res states := rbind r (fun st => chk dbg (forallb (no_diff st) ns) (Ok st)).

Definition propagate_all := call_all (fun n => vn_prop (N n)).
Definition commit_all (st : states) (ns : list nat) : res states := settled (call_all (fun n => vn_commit (N n)) st ns) ns.
Definition revert_all (st : states) (ns : list nat) : res states := settled (call_all (fun n => vn_revert (N n)) st ns) ns.

(** [propose], graph.cpp:285-299.  The marks are kept beside the states. *)
Definition propose (marks : list bool) (sources : list nat) (accept : states -> bool) (st : states) : res (list bool * states) :=
  match descendants g marks sources with
  | None => UB
  | Some (marks', changed) =>
      rbind (propagate_all st changed) (fun st1 =>
      rbind (if accept st1 then commit_all st1 changed else revert_all st1 changed) (fun st2 => Ok (marks', st2)))
  end.

(** [initialize_state], graph.cpp:104-113. *)
Definition initialize_all (st : states) : res states :=
  rfold (fun st n => match st n with
                     | Some _ => Ok st
                     | None => match inputs st n with
                               | Some ps => rbind (vn_init (N n) ps) (fun s => Ok (sset st n s))
                               | None => UB
                               end
                     end) st (gnodes g).
End Propose.

(** ** Nodes without predecessors *)
(** [ConstantNode] in the eyes of its successors, constants.hpp:62-101: nothing to initialise, commit, revert. *)
Definition constant_vnode {V} (shape : list Z) (values : list V) : vnode V :=
  {| vn_shape := shape; vn_pre := []; vn_ST := unit; vn_init := fun _ => Ok tt; vn_out := fun _ _ => Some (still values);
     vn_prop := fun s _ => Ok s; vn_commit := fun s _ => Ok s; vn_revert := fun s _ => Ok s |}.
(** [IntegerNode], [BinaryNode], numbers.cpp:25-100; [propagate] is [Node]'s (graph.hpp:227-231), which calls the
    empty [update] of the successors. *)
Definition number_vnode (shape : list Z) (n : inode) : vnode num :=
  {| vn_shape := shape; vn_pre := []; vn_ST := @adata num; vn_init := fun _ => number_init_default n; vn_out := fun d _ => Some (aout d);
     vn_prop := fun d _ => Ok d; vn_commit := fun d _ => Ok (a_commit d); vn_revert := fun d _ => of_opt (a_revert (zq 0) d) |}.
(** [ListNode], [SetNode], collections.cpp:123-223, 748-794; [default] is what [initialize_state(State&)] leaves. *)
Definition collection_vnode (n : cnode) (default : res (cdata num)) : vnode num :=
  {| vn_shape := [if c_dynamic n then (-1)%Z else Z.of_nat (cmax n)]; vn_pre := []; vn_ST := cdata num; vn_init := fun _ => default;
     vn_out := fun d _ => Some {| pview := c_view d; pdiff := cprev d; psdiff := c_size_diff d |};
     vn_prop := fun d _ => Ok d; vn_commit := fun d _ => Ok (c_commit d); vn_revert := fun d _ => of_opt (c_revert d) |}.
