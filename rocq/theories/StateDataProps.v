(** Properties C01 and C02: array state, updates, commit, revert. *)
From Verif Require Import Base StateDataModel StateDataSpec StateDataProofs.

(** Operations that are not commit/revert. *)
Definition is_move {V} (o : @aop V) : Prop :=
  match o with OCommit | ORevert => False | _ => True end.

Lemma spec_run_moves {V} (os : list (@aop V)) : forall c l c' l',
  Forall is_move os -> spec_run (c, l) os = Some (c', l') -> c' = c.
Proof.
  induction os as [|o os IH]; intros c l c' l' Hm H; unfold spec_run in *; cbn in H.
  - congruence.
  - inversion_clear Hm as [|? ? Ho Hos].
    destruct (spec_op c l o) as [[c1 l1]|] eqn:E; [|discriminate].
    assert (c1 = c).
    { destruct o; cbn in Ho, E; try contradiction.
      - destruct (_ <? _); congruence.
      - destruct (nth_error l i); [|discriminate]. destruct (nth_error l j); congruence.
      - congruence.
      - destruct l; congruence.
      - congruence.
      - destruct (ofold _ _ _); congruence. }
    subst. cbn in H. eapply IH; eauto.
Qed.

Section Statements.
Context {V : Type} (veqb : V -> V -> bool) (vpad : V).
Hypothesis veqb_spec : forall x y, reflect (x = y) (veqb x y).

Lemma array_revert_exact_lemma c os d' :
  Forall is_move os -> a_run veqb vpad (a_init c) os = Some d' ->
  a_revert vpad d' = Some (a_init c).
Proof.
  intros Hm H. destruct (a_run_spec veqb_spec vpad os (Inv_init veqb c) H) as [c' [Hs [H1 H2]]].
  assert (c' = c) by (eapply spec_run_moves; eauto). subst.
  eapply revert_replay; eauto.
Qed.

Lemma array_history_refines_lemma c os d' :
  a_run veqb vpad (a_init c) os = Some d' ->
  exists c', spec_run (c, c) os = Some (c', abuf d') /\
    replay veqb c' (aupd d') = Some (abuf d') /\
    a_size_diff d' = (Z.of_nat (length (abuf d')) - Z.of_nat (length c'))%Z /\
    a_commit d' = a_init (abuf d') /\
    a_revert vpad d' = Some (a_init c').
Proof.
  intros H. destruct (a_run_spec veqb_spec vpad os (Inv_init veqb c) H) as [c' [Hs [H1 H2]]].
  exists c'. repeat split; auto.
  - unfold a_size_diff. congruence.
  - eapply revert_replay; eauto.
Qed.

Lemma array_ops_total_lemma c os :
  spec_run (c, c) os <> None -> a_run veqb vpad (a_init c) os <> None.
Proof. exact (a_run_defined veqb_spec vpad os (d := a_init c) (Inv_init veqb c)). Qed.

End Statements.

(** C01: after any sequence of moves, revert gives back exactly the committed array, with no
    pending updates. *)
Theorem C01_array_revert_exact :
  forall (V : Type) (veqb : V -> V -> bool) (vpad : V),
  (forall x y, reflect (x = y) (veqb x y)) ->
  forall (committed : list V) (moves : list aop) (d' : adata),
  Forall is_move moves ->
  a_run veqb vpad (a_init committed) moves = Some d' ->
  a_revert vpad d' = Some (a_init committed).
Proof. intros; eapply array_revert_exact_lemma; eauto. Qed.
Print Assumptions C01_array_revert_exact.

(** C02: for every history (moves, commits and reverts in any order) the array is the one the
    plain-list specification computes, the pending updates replay from the committed array to the
    current one, the size difference is exact, commit keeps the array and revert restores the
    committed one. *)
Theorem C02_array_history_refines :
  forall (V : Type) (veqb : V -> V -> bool) (vpad : V),
  (forall x y, reflect (x = y) (veqb x y)) ->
  forall (initial : list V) (history : list aop) (d' : adata),
  a_run veqb vpad (a_init initial) history = Some d' ->
  exists committed,
    spec_run (initial, initial) history = Some (committed, abuf d') /\
    replay veqb committed (aupd d') = Some (abuf d') /\
    a_size_diff d' = (Z.of_nat (length (abuf d')) - Z.of_nat (length committed))%Z /\
    a_commit d' = a_init (abuf d') /\
    a_revert vpad d' = Some (a_init committed).
Proof. intros; eapply array_history_refines_lemma; eauto. Qed.
Print Assumptions C02_array_history_refines.

(** C02: no history the specification allows trips an assertion (in particular revert never
    leaves a NaN behind). *)
Theorem C02_array_history_total :
  forall (V : Type) (veqb : V -> V -> bool) (vpad : V),
  (forall x y, reflect (x = y) (veqb x y)) ->
  forall (initial : list V) (history : list aop),
  spec_run (initial, initial) history <> None ->
  a_run veqb vpad (a_init initial) history <> None.
Proof. intros; eapply array_ops_total_lemma; eauto. Qed.
Print Assumptions C02_array_history_total.

(** C02: write and exchange report a change exactly when the array changed. *)
Theorem C02_array_change_flags :
  forall (V : Type) (veqb : V -> V -> bool),
  (forall x y, reflect (x = y) (veqb x y)) ->
  forall (d : adata),
  (forall i v d' b, a_set veqb d i v = Some (d', b) -> (b = true <-> abuf d' <> abuf d)) /\
  (forall i j d' b, a_exchange veqb d i j = Some (d', b) -> (b = true <-> abuf d' <> abuf d)).
Proof. split; intros; [eapply a_set_flag | eapply a_exchange_flag]; eauto. Qed.
Print Assumptions C02_array_change_flags.

(** A history that grows, shrinks below the committed size, regrows, exchanges and bulk-assigns. *)
Definition ex_moves : list (@aop Z) :=
  [OPush 7; OPop; OPop; OPop; OPush 5; OSet 0 9; OExchange 0 1; OAssign [1; 2; 3; 4]; OPop;
   OUpdate [change 0 1 8; placement 3 6]]%Z.
Example C01_example :
  Forall is_move ex_moves /\
  exists d', a_run Z.eqb 0%Z (a_init [10; 20; 30]%Z) ex_moves = Some d' /\
    abuf d' = [8; 2; 3; 6]%Z /\ length (aupd d') = 15 /\
    a_revert 0%Z d' = Some (a_init [10; 20; 30]%Z).
Proof. split; [repeat constructor|]. eexists. vm_compute. repeat split. Qed.

Example C02_example :
  spec_run ([10; 20; 30]%Z, [10; 20; 30]%Z) (ex_moves ++ [OCommit; OPop; ORevert; OPush 3%Z])
  = Some ([8; 2; 3; 6]%Z, [8; 2; 3; 6; 3]%Z).
Proof. reflexivity. Qed.
