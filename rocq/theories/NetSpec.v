(** The multigraph of a model. *)
From Verif Require Import Base GraphModel GraphSpec.
From Coq Require Import String.
Local Open Scope string_scope.

Definition same_edge : forall a b : string * string, {a = b} + {a <> b}.
Proof. decide equality; apply string_dec. Defined.
(** How often [(u, v)] is among the edges. *)
Definition times (u v : string) (es : list (string * string)) : nat := count_occ same_edge es (u, v).
(** Texts that name the nodes: different nodes have different ones, none is one of the two special texts. *)
Definition names (repr : nat -> string) (g : graph) : Prop :=
  (forall n m, In n (gnodes g) -> In m (gnodes g) -> repr n = repr m -> n = m) /\
  (forall n, repr n <> "minimize" /\ repr n <> "constraint(s)").
(** Operands over all nodes. *)
Definition operands (g : graph) : nat := list_sum (map (fun n => List.length (oget (gpred g) n)) (gnodes g)).
