(** What feasibility is: every constraint's value, for the stored states of the decisions, is true. *)
From Verif Require Import Base GraphModel GraphSpec LockModel LockSpec.

Section Spec.
Context {S : Type}.
Variable ninit : nat -> list S -> S.
Variable truth : S -> bool.
Variable g : graph.

Definition satisfied (st : list (option S)) (c : nat) : Prop := exists x, value ninit g (state_of g st) c x /\ truth x = true.
Definition violated (st : list (option S)) (c : nat) : Prop := exists x, value ninit g (state_of g st) c x /\ truth x = false.
End Spec.

(** Python's indices: from the front, or from the back if negative. *)
Definition py_index (len : nat) (index : Z) (i : nat) : Prop := i < len /\ (index = Z.of_nat i \/ index = Z.of_nat i - Z.of_nat len)%Z.

(** A symbol whose state may be read. *)
Definition readable {S} (m : model S) (n : nat) : Prop := is_locked m = true \/ In n (gdec (mg m)).
