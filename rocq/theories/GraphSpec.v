(** What the graph operations are required to do; independent of the algorithms in GraphModel. *)
From Verif Require Import Base GraphModel.
From Coq Require Import Relations.

(** [p] is one of the predecessors recorded in the live node [n]. *)
Definition edge (g : graph) (p n : nat) : Prop := In n (gnodes g) /\ In p (oget (gpred g) n).
Definition reaches (g : graph) : nat -> nat -> Prop := clos_refl_trans nat (edge g).
Definition reaches1 (g : graph) : nat -> nat -> Prop := clos_trans nat (edge g).
Definition acyclic (g : graph) : Prop := forall n, ~ reaches1 g n n.

(** [a] stands before [b] in [l]. *)
Definition before (l : list nat) (a b : nat) : Prop := exists l1 l2 l3, l = l1 ++ a :: l2 ++ b :: l3.

Definition is_decision (g : graph) (n : nat) : bool := existsb (Nat.eqb n) (gdec g).

(** A topological order: decisions first, in order of creation, every predecessor before its
    successors, every node's index equal to its position. *)
Definition topo_ordered (g : graph) : Prop :=
  NoDup (gnodes g) /\
  (exists rest, gnodes g = gdec g ++ rest) /\
  (forall p n, edge g p n -> before (gnodes g) p n) /\
  (forall i n, nth_error (gnodes g) i = Some n -> nth_error (gtopo g) n = Some (Z.of_nat i)).

(** Histories. *)
Definition history (ops : list gop) : res graph := rfold g_step g_empty ops.
Definition no_add_edge (o : gop) : bool := match o with GAddEdge _ _ => false | _ => true end.

(** The numbers of edges recorded at the two ends agree, and no pointer leads to a destructed node. *)
Definition occ (x : nat) (l : list nat) : nat := count_occ Nat.eq_dec l x.
Definition linked (g : graph) : Prop :=
  (forall p n, In p (gnodes g) -> In n (gnodes g) -> occ n (oget (gsucc g) p) = occ p (oget (gpred g) n)) /\
  (forall p n, In p (gnodes g) -> In n (oget (gsucc g) p) -> In n (gnodes g)) /\
  (forall p n, In n (gnodes g) -> In p (oget (gpred g) n) -> In p (gnodes g)).

(** A node that [remove_unused_nodes] has to keep: a decision, the objective, a constraint, a node
    somebody listens to, a node of a kind that may not be removed; and everything these depend on. *)
Definition root (g : graph) (ignore_listeners : bool) (n : nat) : Prop :=
  In n (gdec g) \/ gobj g = Some n \/ In n (gcons g) \/
  (ignore_listeners = false /\ nth n (glisten g) false = true) \/ nth n (gremov g) true = false.
Definition used (g : graph) (ignore_listeners : bool) (n : nat) : Prop :=
  exists r, In r (gnodes g) /\ root g ignore_listeners r /\ reaches g n r.

(** States by node instead of by index. *)
Definition state_of {S} (g : graph) (st : list (option S)) (n : nat) : option S :=
  match tidx g n with
  | Some i => match nth_error st i with Some x => x | None => None end
  | None => None
  end.

(** The nodes whose state has to be created to give the nodes of [T] one: those leading to [T]
    through nodes without a state. *)
Inductive needed {S} (g : graph) (st : list (option S)) (T : list nat) : nat -> Prop :=
| nd_self t : In t T -> state_of g st t = None -> needed g st T t
| nd_pred p m : needed g st T m -> edge g p m -> state_of g st p = None -> needed g st T p.
