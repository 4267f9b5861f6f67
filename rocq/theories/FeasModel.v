(** Model of [Model.feasible] (dwave/optimization/model.py:230-258) over the models of [LockModel]: [all] over the
    constraints in their order ([_Graph.iter_constraints], dwave/optimization/_model.pyx:371-391), stopping at the
    first whose state is false.  A constraint has one element ([Graph::add_constraint], dwave/optimization/src/graph.cpp:177-189), so
    that its state has a truth value, [truth].  [None] for the answer: an exception. *)
From Verif Require Import Base GraphModel LockModel.

Section Feas.
Context {S : Type}.
Variable ninit : nat -> list S -> S.
Variable truth : S -> bool.

(** [ArraySymbol.state], _model.pyx:1430-1441: the index may be negative; then [read_state]. *)
Definition state_at (m : model S) (n : nat) (index : Z) : option (model S * option S) :=
  let num_states := Z.of_nat (length (mstates m)) in
  if negb ((- num_states <=? index) && (index <? num_states))%Z then Some (m, None)
  else read_state ninit m n (Z.to_nat (if (index <? 0)%Z then index + num_states else index)).

(** [all(sym.state(index) for sym in ...)], model.py:258. *)
Fixpoint feas_loop (cs : list nat) (m : model S) (index : Z) : option (model S * option bool) :=
  match cs with
  | [] => Some (m, Some true)
  | c :: t =>
      match state_at m c index with
      | Some (m', Some x) => if truth x then feas_loop t m' index else Some (m', Some false)
      | Some (m', None) => Some (m', None)
      | None => None
      end
  end.
Definition feasible (m : model S) (index : Z) : option (model S * option bool) := feas_loop (gcons (mg m)) m index.
End Feas.
