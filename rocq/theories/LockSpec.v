(** What locking is required to do. *)
From Verif Require Import Base GraphModel GraphSpec LockModel.

(** The number of locks held after a history: extra releases are ignored. *)
Fixpoint held {S} (ops : list (mop S)) (d : nat) : nat :=
  match ops with
  | [] => d
  | MLock :: r => held r (d + 1)
  | MUnlock :: r => held r (d - 1)
  | _ :: r => held r d
  end.

Section Spec.
Context {S : Type}.
Variable ninit : nat -> list S -> S.
Variable kind : nat -> nat.

(** A history, whatever exceptions were raised in it. *)
Fixpoint m_run (m : model S) (ops : list (mop S)) : option (model S) :=
  match ops with
  | [] => Some m
  | o :: r => match m_step ninit kind m o with Some (m', _) => m_run m' r | None => None end
  end.

(** Histories without [+=], and where the states read from a file are those of no more decisions than
    the model has when they are read. *)
Definition fits (m : model S) (o : mop S) : Prop :=
  match o with
  | MIAdd _ _ => False
  | MFile _ sts => Forall (fun st => length st <= length (gdec (mg m))) sts
  | _ => True
  end.
Inductive m_hist : list (mop S) -> model S -> Prop :=
| h_nil : m_hist [] m_empty
| h_step ops m o m' b : m_hist ops m -> fits m o -> m_step ninit kind m o = Some (m', b) -> m_hist (ops ++ [o]) m'.

(** The state of a node that is not a decision is what its predecessors' states give. *)
Definition coherent (m : model S) : Prop :=
  forall i st n x, nth_error (mstates m) i = Some st -> In n (gnodes (mg m)) -> ~ In n (gdec (mg m)) ->
    state_of (mg m) st n = Some x ->
    exists ss, map (state_of (mg m) st) (oget (gpred (mg m)) n) = map Some ss /\ x = ninit n ss.

(** The value of a node, given the states of the decisions. *)
Inductive value (g : graph) (dec : nat -> option S) : nat -> S -> Prop :=
| v_dec d : In d (gdec g) -> value g dec d (match dec d with Some x => x | None => ninit d [] end)
| v_node n ss : In n (gnodes g) -> ~ In n (gdec g) -> Forall2 (value g dec) (oget (gpred g) n) ss -> value g dec n (ninit n ss).
End Spec.
