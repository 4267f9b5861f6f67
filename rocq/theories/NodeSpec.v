(** The contract between a node and its predecessors, and what it means for a node to compute a
    function [F] of its predecessors incrementally.  Specification only. *)
From Verif Require Import Base StateDataModel StateDataSpec ShapeSpec.

(** Static shapes: a leading negative dimension marks a state-dependent first axis
    (array.hpp:718-719, 743-747). *)
Definition dynamic (s : list Z) : bool := match s with d :: _ => (d <? 0)%Z | [] => false end.

(** Current length allowed by a static shape. *)
Definition fits_len (s : list Z) (n : nat) : Prop :=
  if dynamic s then exists k, (0 <= k /\ Z.of_nat n = k * prod (tl s))%Z
  else Z.of_nat n = prod s.

(** A proper static shape: only axis 0 may be state-dependent (marked -1), the other axes are not
    empty, and the size fits the [int] that [shape_to_size] computes it in. *)
Definition wf_shape (s : list Z) : Prop :=
  Forall (fun d => 0 < d)%Z (tl s) /\ (prod s < 2147483648)%Z /\
  match s with d :: _ => (-1 <= d)%Z | [] => True end.
(** One element, always. *)
Definition single (s : list Z) : bool := negb (dynamic s) && (prod s =? 1)%Z.

Section NodeSpec.
Context {V : Type}.
Variable veqb : V -> V -> bool.

Definition fits (s : list Z) (v : list V) : Prop := fits_len s (length v).

(** What a node can read of a predecessor: current view, pending updates, size difference. *)
Record pin := Pin { pview : list V; pdiff : list (update V); psdiff : Z }.
Definition still (v : list V) : pin := {| pview := v; pdiff := []; psdiff := 0 |}.

Definition is_change (u : update V) : Prop := uold u <> None /\ uval u <> None.

(** A well-behaved predecessor of static shape [s] whose committed value is [old]. *)
Record pin_ok (s : list Z) (old : list V) (p : pin) : Prop := {
  po_old : fits s old;
  po_new : fits s (pview p);
  po_replay : replay veqb old (pdiff p) = Some (pview p);
  po_sdiff : psdiff p = (Z.of_nat (length (pview p)) - Z.of_nat (length old))%Z;
  po_fixed : dynamic s = false -> Forall is_change (pdiff p) }.

(** A node: output shape, expected predecessor shapes, state, and its methods. *)
Record node := Node {
  nd_shape : list Z;
  nd_pre : list (list Z);
  nd_ST : Type;
  nd_init : list pin -> res nd_ST;
  nd_out : nd_ST -> list pin -> option pin;
  nd_prop : nd_ST -> list pin -> res nd_ST;
  nd_commit : nd_ST -> nd_ST;
  nd_revert : nd_ST -> res nd_ST }.

(** [N] computes [F] of its inputs incrementally: there is a notion of clean state (for committed
    inputs [ins]) such that initialisation reaches it with the right value; propagation, from it and
    from well-behaved inputs, reaches a state with the value for the new inputs, exposing a
    well-behaved update list; and then commit and revert reach the clean state for the new and for
    the old inputs. *)
Record node_ok (N : node) (F : list (list V) -> option (list V)) : Prop := {
  nk_ok : exists clean : list (list V) -> nd_ST N -> Prop,
    (forall ins v, Forall2 fits (nd_pre N) ins -> F ins = Some v ->
       fits (nd_shape N) v /\ exists s, nd_init N (map still ins) = Ok s /\ clean ins s) /\
    (forall ins s, clean ins s ->
       exists v, F ins = Some v /\ nd_out N s (map still ins) = Some (still v)) /\
    (forall ins s v pins v', clean ins s -> F ins = Some v ->
       Forall2 (fun si p => pin_ok (fst si) (snd si) p) (combine (nd_pre N) ins) pins ->
       length (nd_pre N) = length ins ->
       F (map pview pins) = Some v' ->
       exists s', nd_prop N s pins = Ok s' /\
         (exists p, nd_out N s' pins = Some p /\ pview p = v' /\ pin_ok (nd_shape N) v p) /\
         clean (map pview pins) (nd_commit N s') /\
         exists s'', nd_revert N s' = Ok s'' /\ clean ins s'') }.

End NodeSpec.
Arguments pin : clear implicits.
Arguments node : clear implicits.
