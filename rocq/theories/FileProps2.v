(** C63, C44: which symbols of a file are decisions; numbers of states. *)
From Verif Require Import Base Num SliceModel StateDataModel NodeSpec GraphModel LockModel IoModel NaryModel PyModel PySpec FileModel FileProofs2 FileProofs3 FileProps.
Local Open Scope Z_scope.

(** In every model built with the front end the decisions are the symbols made from nothing, except constants. *)
Theorem C63_decision_nodes : forall ops m x s, build ops = Ok m -> nth_error (p_syms m) x = Some s ->
  (decision_cls (s_cls s) = true <-> s_pred s = [] /\ forall v, s_cls s <> KConst v).
Proof.
  intros ops m x s B H. pose proof (proj1 (build_inv _ _ B) _ _ H) as F. unfold fine in F.
  destruct (s_cls s) eqn:C; cbn [decision_cls]; split; try discriminate; try reflexivity.
  all: first [intros _; split; [tauto|discriminate]|intros [P Q]; exfalso].
  all: try (eapply Q; reflexivity).
  all: try rewrite P in F; repeat match goal with K : _ /\ _ |- _ => destruct K | K : exists _, _ |- _ => destruct K end; try discriminate; try contradiction.
Qed.
Print Assumptions C63_decision_nodes.

(** An archive that claims a negative number of states is not read. *)
Theorem C44_negative_states : forall S ninit kind decides (a : archive S) m, a_nstates a < 0 -> read ninit kind decides a <> Ok m.
Proof.
  intros S ninit kind decides a m H. unfold read. destruct (rfold _ _ _) as [[m1 k]| |]; cbn [rbind]; try discriminate.
  match goal with |- rbind ?r _ <> _ => destruct r end; cbn [rbind]; try discriminate.
  match goal with |- rbind ?r _ <> _ => destruct r end; cbn [rbind]; try discriminate.
  destruct (Z.ltb_spec (a_nstates a) 0); [discriminate|lia].
Qed.
Print Assumptions C44_negative_states.

(** In the model of [C63_ex]: a decision, a constant, a part of a decision.  An archive of one decision. *)
Example C63_decision_nodes_example : build ex_ops = Ok ex_m /\
  option_map (fun s => (decision_cls (s_cls s), s_pred s)) (nth_error (p_syms ex_m) 4) = Some (true, []) /\
  option_map (fun s => (decision_cls (s_cls s), s_pred s)) (nth_error (p_syms ex_m) 3) = Some (false, []) /\
  option_map (fun s => (decision_cls (s_cls s), s_pred s)) (nth_error (p_syms ex_m) 1) = Some (false, [0%nat]).
Proof. split; [exact ex_build|]. vm_compute. repeat split. Qed.
Example C44_negative_states_example : read (fun _ _ => 0) (fun _ => O) (fun _ => true) (Archive [O] [(0, [])] None [] (-1) []) = Throw /\
  exists m, read (fun _ _ => 0) (fun _ => O) (fun _ => true) (Archive [O] [(0, [])] None [] 0 []) = Ok m.
Proof. split; [vm_compute; reflexivity|eexists; vm_compute; reflexivity]. Qed.
