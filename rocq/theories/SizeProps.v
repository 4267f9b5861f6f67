From Verif Require Import Base SliceModel ArithModel ArithSpec SizeModel SizeSpec SizeProofs Num.
Local Open Scope Z_scope.

(** C42: for arrays made from one decision by cutting its ends, or from one by keeping its head or tail,
    the declared size is the actual one, however deep it is traced back. *)
Theorem C42_exact : forall ctx sz id depth i j, sized ctx sz -> trimmed ctx id \/ headed ctx id ->
  info ctx id = Ok i -> substitute ctx depth i = Ok j -> declares sz j (sz id).
Proof.
  intros ctx sz id depth i j Sz K I H.
  assert (G : good ctx sz i (sz id)) by (apply known_good; auto; destruct K; [left|right; left]; assumption).
  apply good_declares with ctx; auto.
  - eapply good_subst; eassumption.
  - eapply ptr_subst; [exact Sz|exact G| |exact H].
    destruct K as [K|K]; [pose proof (info_T ctx sz Sz _ _ K I) as T|pose proof (info_H ctx sz Sz _ _ K I) as T]; destruct T; discriminate.
Qed.
Print Assumptions C42_exact.

(** In particular a declared maximum is never exceeded, and for the first kind neither is a minimum undercut. *)
Theorem C42_bounds : forall ctx sz id depth i j, sized ctx sz -> trimmed ctx id \/ headed ctx id ->
  info ctx id = Ok i -> substitute ctx depth i = Ok j ->
  (forall m, si_max j = Some m -> sz id <= m) /\
  (trimmed ctx id -> forall m, si_min j = Some m -> m <= sz id).
Proof.
  intros ctx sz id depth i j Sz K I H. destruct (C42_exact _ _ _ _ _ _ Sz K I H) as (p & x & _ & _ & E). cbv zeta in E. split.
  - intros m Em. rewrite Em in E. lia.
  - intros T m Em. pose proof (info_T ctx sz Sz _ _ T I) as IT.
    assert (IT' : invT ctx sz j (sz id)).
    { clear - Sz IT H. revert i IT H. induction depth as [|d IH]; intros i IT H; cbn [substitute] in H; [congruence|].
      apply rbind_inv in H as ([t' b] & H1 & H2). pose proof (step_T ctx sz Sz _ _ _ _ IT H1) as IT'.
      destruct b; [congruence|]. eapply IH; eassumption. }
    inversion IT' as [q off s' Tq Hq Eq EJ Es'|q mx off s' Eq Hq Ess EJ Es'|q mx Eq EJ Es']; subst j; cbn [si_min] in Em; try discriminate Em;
      injection Em as <-; lia.
Qed.
Print Assumptions C42_bounds.

(** Two such arrays (or arrays of fixed size) reported to have the same shape have the same size. *)
Theorem C42_same_shape : forall ctx sz fuel a b, sized ctx sz ->
  (trimmed ctx a \/ headed ctx a \/ exists n, ctx a = Some (AFixed n)) ->
  (trimmed ctx b \/ headed ctx b \/ exists n, ctx b = Some (AFixed n)) ->
  shape_equal ctx fuel a b = Ok true -> sz a = sz b.
Proof. intros ctx sz fuel a b Sz Ka Kb. now apply shape_equal_sizes. Qed.
Print Assumptions C42_same_shape.

(** A context of arrays and their sizes, given by a table. *)
Definition arrs (l : list (arr * Z)) (k : nat) : option arr := option_map fst (nth_error l k).
Definition sizes (l : list (arr * Z)) (k : nat) : Z := match nth_error l k with Some x => snd x | None => 0 end.
Lemma sized_table l : Forall (fun '(a, s) => 0 <= s <= SMAX /\
  match a with
  | AFixed n => s = n
  | AOwn mn mx => (forall x, mn = Some x -> x <= s) /\ (forall x, mx = Some x -> s <= x)
  | ADefault p | AScalarOp p => s = sizes l p
  | AGather p k => s = sizes l p * k
  | ASlice p c prow row => exists rows f n, sizes l p = rows * prow /\ fit c rows = Ok f /\ slice_size f = Ok n /\ s = n * row
  end) l -> sized (arrs l) (sizes l).
Proof.
  intros F id a E. rewrite Forall_forall in F. unfold arrs in E. destruct (nth_error l id) as [[a' s]|] eqn:N; [|discriminate E].
  cbn in E. injection E as ->. specialize (F _ (nth_error_In _ _ N)).
  unfold sizes at 1 2. rewrite N. cbn [snd]. destruct F as [B F]. split; [exact B|].
  destruct a; unfold sizes at 1; try rewrite N; cbn [snd]; try exact F.
  - destruct F as [F1 F2]. split; [exact F1|]. unfold sizes. rewrite N. exact F2.
  - destruct F as (r & f & n & F1 & F2 & F3 & F4). exists r, f, n. repeat split; auto. unfold sizes. rewrite N. exact F4.
Qed.
Ltac table := apply sized_table; repeat (apply Forall_cons || apply Forall_nil); (split; [unfold SMAX; lia|]).

(** A slice of at most two elements of a decision of at least five declares a minimum of five. *)
Theorem C42_minimum_refuted : exists ctx sz id i j m, sized ctx sz /\ headed ctx id /\
  info ctx id = Ok i /\ substitute ctx 100 i = Ok j /\ si_min j = Some m /\ sz id < m.
Proof.
  pose (l := [(AOwn (Some 5) (Some 10), 7); (ASlice 0 (Slice 0 2 1) 1 1, 2)]).
  exists (arrs l), (sizes l), 1%nat.
  eexists. eexists. eexists. split.
  { table.
    - split; intros x X; injection X as <-; lia.
    - exists 7, (Slice 0 2 1), 2. repeat split; reflexivity. }
  split.
  { eapply H_slice; [reflexivity|left; unfold SMAX; lia|]. eapply H_own; [reflexivity| |]; intros; try congruence.
    - assert (a = 5) by congruence. assert (b = 10) by congruence. lia.
    - assert (a = 5) by congruence. unfold SMAX. lia. }
  split; [vm_compute; reflexivity|]. split; [vm_compute; reflexivity|]. split; [reflexivity|]. reflexivity.
Qed.
Print Assumptions C42_minimum_refuted.

(** Cutting the first three elements off a decision of five to ten: the offset is subtracted from the
    maximum again in every round, down to zero. *)
Theorem C42_maximum_refuted : exists ctx sz id i j m, sized ctx sz /\
  info ctx id = Ok i /\ substitute ctx 100 i = Ok j /\ si_max j = Some m /\ m < sz id.
Proof.
  pose (l := [(AOwn (Some 5) (Some 10), 10); (ASlice 0 (Slice 3 SMAX 1) 1 1, 7)]).
  exists (arrs l), (sizes l), 1%nat.
  eexists. eexists. eexists. split.
  { table.
    - split; intros x X; injection X as <-; lia.
    - exists 10, (Slice 3 10 1), 7. repeat split; reflexivity. }
  split; [vm_compute; reflexivity|]. split; [vm_compute; reflexivity|]. split; [reflexivity|]. reflexivity.
Qed.
Print Assumptions C42_maximum_refuted.

(** [A[2:][:5]] of a decision of at most ten elements: declared maximum three, although five are possible;
    and it is reported to have the same shape as [A[2:5]], of three elements. *)
Theorem C42_two_sided_refuted : exists ctx sz a b i j m, sized ctx sz /\ (exists mx, ctx 0%nat = Some (AOwn (Some 0) mx)) /\
  shape_equal ctx 10 a b = Ok true /\ sz a <> sz b /\
  info ctx b = Ok i /\ substitute ctx 100 i = Ok j /\ si_max j = Some m /\ m < sz b.
Proof.
  pose (l := [(AOwn (Some 0) (Some 10), 10); (ASlice 0 (Slice 2 5 1) 1 1, 3); (ASlice 0 (Slice 2 SMAX 1) 1 1, 8); (ASlice 2 (Slice 0 5 1) 1 1, 5)]).
  exists (arrs l), (sizes l), 1%nat, 3%nat.
  eexists. eexists. eexists. split.
  { table.
    - split; intros x X; injection X as <-; lia.
    - exists 10, (Slice 2 5 1), 3. repeat split; reflexivity.
    - exists 10, (Slice 2 10 1), 8. repeat split; reflexivity.
    - exists 8, (Slice 0 5 1), 5. repeat split; reflexivity. }
  split; [eexists; reflexivity|]. split; [vm_compute; reflexivity|]. split; [discriminate|].
  split; [vm_compute; reflexivity|]. split; [vm_compute; reflexivity|]. split; [reflexivity|]. reflexivity.
Qed.
Print Assumptions C42_two_sided_refuted.

(** Every second element: the odd and the even positions are reported to have the same shape. *)
Theorem C42_strided_refuted : exists ctx sz a b i m, sized ctx sz /\
  shape_equal ctx 10 a b = Ok true /\ sz a <> sz b /\
  (exists c, info ctx c = Ok i /\ si_max i = Some m /\ m < sz c).
Proof.
  pose (l := [(AOwn (Some 0) (Some 10), 7); (ASlice 0 (Slice 0 SMAX 2) 1 1, 4); (ASlice 0 (Slice 1 SMAX 2) 1 1, 3); (ASlice 0 (Slice 0 3 2) 1 1, 2)]).
  exists (arrs l), (sizes l), 1%nat, 2%nat.
  eexists. eexists. split.
  { table.
    - split; intros x X; injection X as <-; lia.
    - exists 7, (Slice 0 7 2), 4. repeat split; reflexivity.
    - exists 7, (Slice 1 7 2), 3. repeat split; reflexivity.
    - exists 7, (Slice 0 3 2), 2. repeat split; reflexivity. }
  split; [vm_compute; reflexivity|]. split; [discriminate|]. exists 3%nat.
  split; [vm_compute; reflexivity|]. split; [reflexivity|]. reflexivity.
Qed.
Print Assumptions C42_strided_refuted.

(** Gathering rows of four: the declared size is that of the index array. *)
Theorem C42_rows_refuted : exists ctx sz a b, sized ctx sz /\ shape_equal ctx 10 a b = Ok true /\ sz a <> sz b.
Proof.
  pose (l := [(AOwn (Some 0) (Some 10), 3); (AGather 0 4, 12)]).
  exists (arrs l), (sizes l), 1%nat, 0%nat. split.
  { table.
    - split; intros x X; injection X as <-; lia.
    - reflexivity. }
  split; [vm_compute; reflexivity|discriminate].
Qed.
Print Assumptions C42_rows_refuted.

(** A slice of no elements is reported to be as long as its operand. *)
Theorem C42_empty_slice_refuted : exists ctx sz a b, sized ctx sz /\ shape_equal ctx 10 a b = Ok true /\ sz a <> sz b.
Proof.
  pose (l := [(AOwn (Some 0) (Some 10), 3); (ASlice 0 (Slice 0 0 1) 1 1, 0); (ASlice 0 (Slice 0 SMAX 1) 1 1, 3)]).
  exists (arrs l), (sizes l), 1%nat, 2%nat. split.
  { table.
    - split; intros x X; injection X as <-; lia.
    - exists 3, (Slice 0 0 1), 0. repeat split; reflexivity.
    - exists 3, (Slice 0 3 1), 3. repeat split; reflexivity. }
  split; [vm_compute; reflexivity|discriminate].
Qed.
Print Assumptions C42_empty_slice_refuted.

(** Chains of the two kinds; [A[2:][:-1]] and [A[1:-2]] are found to have the same shape. *)
Example C42_example : let l := [(AOwn (Some 0) (Some 10), 9); (ASlice 0 (Slice 2 SMAX 1) 1 1, 7); (ASlice 1 (Slice 0 (-1) 1) 1 1, 6); (ASlice 0 (Slice 1 (-2) 1) 1 1, 6); (AScalarOp 3, 6); (ASlice 0 (Slice (-4) SMAX 1) 1 1, 4); (AGather 5 1, 4)] in
  let ctx := arrs l in let sz := sizes l in
  sized ctx sz /\ trimmed ctx 2 /\ trimmed ctx 4 /\ headed ctx 6 /\ shape_equal ctx 10 2 4 = Ok true /\ shape_equal ctx 10 2 6 = Ok false /\
  (exists i j, info ctx 4 = Ok i /\ substitute ctx 100 i = Ok j /\ si_max j = Some 7 /\ si_off j = -3).
Proof.
  cbv zeta. split.
  { table.
    - split; intros x X; injection X as <-; lia.
    - exists 9, (Slice 2 9 1), 7. repeat split; reflexivity.
    - exists 7, (Slice 0 6 1), 6. repeat split; reflexivity.
    - exists 9, (Slice 1 7 1), 6. repeat split; reflexivity.
    - reflexivity.
    - exists 9, (Slice 5 9 1), 4. repeat split; reflexivity.
    - reflexivity. }
  split; [eapply T_slice; [reflexivity|unfold SMAX; lia|right; unfold SMAX; lia|eapply T_slice; [reflexivity|unfold SMAX; lia|now left|eapply T_own; reflexivity]]|].
  split; [eapply T_scalar; [reflexivity|eapply T_slice; [reflexivity|unfold SMAX; lia|right; unfold SMAX; lia|eapply T_own; reflexivity]]|].
  split.
  { eapply H_gather; [reflexivity|]. eapply H_slice; [reflexivity|right; unfold SMAX; lia|]. eapply H_own; [reflexivity| |].
    - intros a b Ea Eb. injection Ea as <-. injection Eb as <-. lia.
    - intros a Ea. injection Ea as <-. unfold SMAX. lia. }
  split; [vm_compute; reflexivity|]. split; [vm_compute; reflexivity|].
  eexists. eexists. split; [vm_compute; reflexivity|]. split; [vm_compute; reflexivity|]. split; reflexivity.
Qed.
