(** C01, C02 for the scalar state [ScalarNodeStateData] (src/nodes/_state.hpp:191-206); C06 the default states of lists and sets. *)
From Verif Require Import Base Num StateDataModel StateDataSpec StateDataProofs CollectionsModel.

(** What may happen to a scalar, and its meaning on the pair of the committed and the current value. *)
Inductive scalar_op (V : Type) := SSet (v : V) | SCommit | SRevert.
Arguments SSet {V}. Arguments SCommit {V}. Arguments SRevert {V}.
Definition scalar_spec {V} (s : V * V) (o : scalar_op V) : V * V :=
  match o with SSet v => (fst s, v) | SCommit => (snd s, snd s) | SRevert => (fst s, fst s) end.
Definition scalar_call {V} (d : @sdata V) (o : scalar_op V) : @sdata V :=
  match o with SSet v => s_set d v | SCommit => s_commit d | SRevert => s_revert d end.

(** After any history the value is the current one, the reported updates replay from the committed value to it
    and are none when the two agree, commit keeps the value and revert restores the committed one. *)
Theorem C02_scalar_history_refines : forall (V : Type) (veqb : V -> V -> bool), (forall x y, reflect (x = y) (veqb x y)) ->
  forall (initial : V) (history : list (scalar_op V)),
  let d := fold_left scalar_call history (s_init initial) in
  let '(committed, current) := fold_left scalar_spec history (initial, initial) in
  sval d = current /\ replay veqb [committed] (s_diff veqb d) = Some [current] /\
  (s_diff veqb d = [] <-> committed = current) /\ s_commit d = s_init current /\ s_revert d = s_init committed.
Proof.
  intros V veqb R initial history.
  assert (I : forall (c x : V), fold_left scalar_call history (SData c x) = SData (fst (fold_left scalar_spec history (c, x))) (snd (fold_left scalar_spec history (c, x)))).
  { induction history as [|o h IH]; intros c x; [reflexivity|]. destruct o; cbn; unfold s_set, s_commit, s_revert; cbn; apply IH. }
  cbn zeta. unfold s_init. rewrite I. destruct (fold_left scalar_spec history (initial, initial)) as [c x]. cbn [fst snd].
  unfold s_diff, s_commit, s_revert. cbn [sold sval]. split; [reflexivity|].
  destruct (R c x) as [E|E].
  - subst. cbn. repeat split; auto.
  - split; [|split; [split; [intros Q; inversion Q|intros Q; now destruct E]|split; reflexivity]].
    unfold replay, replay1. cbn. destruct (R c c) as [_|N]; [reflexivity|now destruct N].
Qed.
Print Assumptions C02_scalar_history_refines.

(** Setting a scalar any number of times and reverting leaves the committed value and no update. *)
Theorem C01_scalar_revert_exact : forall (V : Type) (veqb : V -> V -> bool), (forall x y, reflect (x = y) (veqb x y)) ->
  forall (committed : V) (values : list V),
  let d := s_revert (fold_left s_set values (s_init committed)) in
  sval d = committed /\ s_diff veqb d = [] /\ d = s_init committed.
Proof.
  intros V veqb R committed values.
  assert (I : forall x : V, sold (fold_left s_set values (SData committed x)) = committed).
  { induction values as [|v t IH]; intros x; [reflexivity|]. cbn. unfold s_set at 2. cbn. apply IH. }
  cbn zeta. unfold s_init, s_revert, s_diff. cbn [sold sval]. rewrite I.
  destruct (R committed committed) as [_|N]; [|now destruct N]. auto.
Qed.
Print Assumptions C01_scalar_revert_exact.

(** By default a list exposes 0, 1, ... up to its maximum size and a set up to its minimum size; nothing is pending. *)
Theorem C06_default_views : forall mv lo hi n, collection_node mv lo hi = Some n ->
  c_view (list_init_default n) = map (fun k => zq (Z.of_nat k)) (seq 0 hi) /\ cprev (list_init_default n) = [] /\ c_size_diff (list_init_default n) = 0%Z /\
  c_view (set_init_default n) = map (fun k => zq (Z.of_nat k)) (seq 0 lo) /\ cprev (set_init_default n) = [] /\ c_size_diff (set_init_default n) = 0%Z.
Proof.
  intros mv lo hi n H. unfold collection_node in H. destruct (Nat.ltb_spec hi lo); [discriminate|].
  destruct (Nat.ltb_spec mv hi); [discriminate|]. injection H as <-.
  assert (F : forall j k, j <= k -> firstn j (qrange k) = map (fun k => zq (Z.of_nat k)) (seq 0 j)).
  { intros j k L. unfold qrange. rewrite firstn_map. replace k with (j + (k - j)) by lia.
    rewrite seq_app, firstn_app, seq_length, Nat.sub_diag, firstn_O, app_nil_r, firstn_all2 by (rewrite seq_length; lia). reflexivity. }
  unfold c_view, list_init_default, set_init_default, c_new, c_size_diff. cbn [cel csize cpsize cprev cmin cmax cmaxval].
  rewrite !F by lia. rewrite !Z.sub_diag. repeat split; reflexivity.
Qed.
Print Assumptions C06_default_views.

Example C02_scalar_example :
  let d := fold_left scalar_call [SSet 3; SSet 5; SCommit; SSet 7; SRevert; SSet 9; SSet 2]%Z (s_init 1%Z) in
  d = SData 5%Z 2%Z /\ s_diff Z.eqb d = [change 0 5 2]%Z /\ s_revert d = s_init 5%Z.
Proof. repeat split. Qed.
Example C01_scalar_example : s_revert (fold_left s_set [3; 8]%Z (s_init 1%Z)) = s_init 1%Z.
Proof. reflexivity. Qed.
Example C06_default_example : exists n, collection_node 5 1 3 = Some n /\ c_view (list_init_default n) = map zq [0; 1; 2]%Z /\ c_view (set_init_default n) = map zq [0%Z].
Proof. eexists. split; [reflexivity|]. split; vm_compute; reflexivity. Qed.
