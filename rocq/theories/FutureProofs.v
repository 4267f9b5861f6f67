(** States that arrive later. *)
From Verif Require Import Base GraphModel LockModel FutureModel FutureSpec.

Section Future.
Context {S : Type}.
Variable ninit : nat -> list S -> S.
Variable kind : nat -> nat.
Local Notation f_step := (@f_step S ninit kind).
Local Notation f_run := (@f_run S ninit kind).
Local Notation e_step := (@e_step S ninit kind).
Local Notation e_run := (@e_run S ninit kind).
Definition sound (f : fmodel S) : Prop := fpend f <> Some None.
Lemma resolve_ok (f : fmodel S) : sound f -> exists f1, resolve f = (f1, true) /\ fm f1 = settled f /\ fpend f1 = None.
Proof.
  unfold sound, resolve, settled. destruct f as [m [[sts|]|] c]; cbn [fpend fm fcalled]; intros H; [| now elim H|]; eexists; split; try reflexivity; now split.
Qed.
Lemma then_ok f o : sound f -> match f_then ninit kind f o with
  | Some (f1, s) => m_look ninit kind (settled f) o = Some (settled f1, s) /\ sound f1
  | None => m_look ninit kind (settled f) o = None
  end.
Proof.
  intros H. destruct (resolve_ok f H) as (f1 & E & Em & Ep). unfold f_then. rewrite E. cbv iota. rewrite Em. destruct (m_look ninit kind (settled f) o) as [[m' s]|]; [|reflexivity]. unfold settled, sound. cbn [fpend fm]. rewrite Ep. split; [reflexivity|discriminate].
Qed.
Lemma look_e m o : m_look ninit kind m o = e_step m (FOp o).
Proof. destruct o; try reflexivity. cbn. destruct (read_state ninit m n i) as [[m' [v|]]|]; reflexivity. Qed.
Definition no_access (o : mop S) : Prop := match o with MLock | MDecision | MAdd _ | MIAdd _ _ | MRemove | MObjective _ | MConstraint _ | MName _ _ => True | _ => False end.
Lemma look_states m s o : no_access o -> m_look ninit kind (with_states m s) o = match m_look ninit kind m o with Some (m', x) => Some (with_states m' s, x) | None => None end.
Proof.
  assert (G : forall r, match on_graph (with_states m s) r with Some (m', b) => Some (m', (b, @None S)) | None => None end =
                   match (match on_graph m r with Some (m', b) => Some (m', (b, @None S)) | None => None end) with Some (m', x) => Some (with_states m' s, x) | None => None end) by (intros [g| |]; reflexivity).
  destruct o; intros H; try destruct H; cbn [m_look m_step]; try exact (G _).
  - unfold lock. cbn [with_states mg mlocks mstates]. destruct (topological_sort (mg m)); reflexivity.
  - unfold is_locked. cbn [with_states mlocks mg]. destruct (0 <? mlocks m); [reflexivity|exact (G _)].
Qed.
Lemma direct_ok f o : sound f -> no_access o -> match f_direct ninit kind f o with
  | Some (f1, s) => m_look ninit kind (settled f) o = Some (settled f1, s) /\ sound f1
  | None => m_look ninit kind (settled f) o = None
  end.
Proof.
  intros H N. unfold f_direct, settled, sound in *. destruct f as [m [[sts|]|] c]; cbn [fpend fm fcalled] in *; [|now elim H|].
  - change (Model (mg m) (mlocks m) sts) with (with_states m sts). rewrite (look_states m sts o N). destruct (m_look ninit kind m o) as [[m' x]|]; [|reflexivity]. cbn [fpend fm]. split; [reflexivity|discriminate].
  - destruct (m_look ninit kind m o) as [[m' x]|]; [|reflexivity]. cbn [fpend fm]. split; [reflexivity|discriminate].
Qed.
Lemma unlock_ok f : sound f -> m_look ninit kind (settled f) MUnlock = Some (settled (fst (f_unlock f)), snd (f_unlock f)) /\ sound (fst (f_unlock f)).
Proof.
  intros H. cbn [m_look m_step]. unfold f_unlock, unlock, settled, sound, resolve, is_locked, with_states, num_decisions in *. destruct f as [[g l st] [[sts|]|] c]; cbn [fpend fm fcalled mg mlocks mstates] in *; [|now elim H|];
    destruct (0 <? l); cbn [negb]; cbn [fst snd fpend fm]; try (split; [reflexivity|discriminate]); cbn [mlocks mg mstates];
    destruct (l - 1 <? 1); cbn [mlocks mg mstates]; destruct (0 <? l - 1); cbn [negb fst snd fpend fm mg mlocks mstates]; (split; [reflexivity|discriminate]).
Qed.
Lemma step_ok f o : sound f -> succeeds o -> match f_step f o with
  | Some (f1, s) => e_step (settled f) o = Some (settled f1, s) /\ sound f1
  | None => e_step (settled f) o = None
  end.
Proof.
  intros H G. destruct o as [o|[r|]]; [| |destruct G].
  - rewrite <- look_e. destruct o; try exact (then_ok f _ H); try (match goal with |- context [FOp ?x] => exact (direct_ok f x H I) end). cbn [FutureModel.f_step]. destruct (unlock_ok f H) as [A B]. destruct (f_unlock f) as [f1 s]. split; assumption.
  - destruct (resolve_ok f H) as (f1 & E & Em & Ep). cbn [FutureModel.f_step]. rewrite E. unfold sound, settled at 2. cbn [fpend fm with_states mg mlocks]. rewrite Em. split; [reflexivity|discriminate].
Qed.
Lemma deferred os : forall f, sound f -> Forall succeeds os -> option_map (fun r => (settled (fst r), snd r)) (f_run f os) = e_run (settled f) os.
Proof.
  induction os as [|o os IH]; intros f H G; [reflexivity|]. inversion G as [|? ? Go Gs]; subst. cbn [FutureModel.f_run FutureSpec.e_run]. pose proof (step_ok f o H Go) as E. destruct (f_step f o) as [[f1 s]|]; [|now rewrite E]. destruct E as [E H1]. rewrite E. rewrite <- (IH f1 H1 Gs). destruct (f_run f1 os) as [[f2 l]|]; reflexivity.
Qed.
(** Every hook is called once. *)
Definition opt_list {A} (o : option A) : list A := match o with Some x => [x] | None => [] end.
Lemma resolve_called (f : fmodel S) : fcalled (fst (resolve f)) = fcalled f ++ opt_list (fpend f) /\ fpend (fst (resolve f)) = None.
Proof. unfold resolve. destruct f as [m [[sts|]|] c]; cbn; rewrite ?app_nil_r; now split. Qed.
Lemma step_called f o f1 s : f_step f o = Some (f1, s) -> fcalled f1 ++ opt_list (fpend f1) = fcalled f ++ opt_list (fpend f) ++ match o with FFuture r => if fst s then [r] else [] | _ => [] end.
Proof.
  destruct (resolve_called f) as [C P]. intros E. assert (T : forall o, f_then ninit kind f o = Some (f1, s) -> fcalled f1 ++ opt_list (fpend f1) = fcalled f ++ opt_list (fpend f) ++ []).
  { intros o' E'. unfold f_then in E'. destruct (resolve f) as [f' ok]. cbn [fst] in C, P. destruct ok; [destruct (m_look ninit kind (fm f') o') as [[m' x]|]; [|discriminate]|]; injection E' as <- <-; cbn [fpend fcalled]; rewrite P, C; now rewrite !app_nil_r. }
  assert (D : forall o, f_direct ninit kind f o = Some (f1, s) -> fcalled f1 ++ opt_list (fpend f1) = fcalled f ++ opt_list (fpend f) ++ []).
  { intros o' E'. unfold f_direct in E'. destruct (m_look ninit kind (fm f) o') as [[m' x]|]; [|discriminate]. injection E' as <- <-. cbn [fpend fcalled]. now rewrite !app_nil_r. }
  destruct o as [o|r].
  - destruct o; try exact (T _ E); try exact (D _ E). clear T D. cbn [FutureModel.f_step] in E. injection E as E. rewrite !app_nil_r. unfold f_unlock, resolve in E. destruct f as [[g l st] [[sts|]|] c]; cbn [fpend fm fcalled mg mlocks mstates is_locked] in *;
      destruct (negb (is_locked _)); try (injection E as <- <-; reflexivity); cbn [mlocks] in E; destruct (l - 1 <? 1); cbn [mg mlocks mstates] in E; destruct (is_locked _); cbv iota in E; injection E as <- <-; cbn [fpend fcalled opt_list]; rewrite ?app_nil_r; reflexivity.
  - cbn [FutureModel.f_step] in E. destruct (resolve f) as [f' ok]. cbn [fst] in C, P. destruct ok; injection E as <- <-; cbn [fpend fcalled fst opt_list]; rewrite ?P, C; cbn [opt_list]; now rewrite <- ?app_assoc, ?app_nil_r.
Qed.
Lemma run_called os : forall f f1 l, f_run f os = Some (f1, l) -> fcalled f1 ++ opt_list (fpend f1) = fcalled f ++ opt_list (fpend f) ++ accepted os l.
Proof.
  induction os as [|o os IH]; intros f f1 l E; cbn [FutureModel.f_run] in E; [injection E as <- <-; cbn; now rewrite app_nil_r|]. destruct (f_step f o) as [[f2 s]|] eqn:E2; [|discriminate]. destruct (f_run f2 os) as [[f3 l']|] eqn:E3; [|discriminate]. injection E as <- <-.
  rewrite (IH _ _ _ E3). rewrite app_assoc, (step_called _ _ _ _ E2). rewrite <- !app_assoc. f_equal. f_equal. destruct o as [o|r]; cbn [accepted]; [reflexivity|]. destruct s as [[|] v]; reflexivity.
Qed.
Lemma failing m c o : match o with FFuture _ => True | FOp o => ~ no_access o /\ (o = MUnlock -> mlocks m = 1) end ->
  exists m', f_step (F m (Some None) c) o = Some (F m' None (c ++ [None]), (false, None)) /\ mstates m' = mstates m /\ (o <> FOp MUnlock -> m' = m).
Proof.
  intros H. destruct o as [o|r]; [|exists m; split; [reflexivity|split; reflexivity]]. destruct H as [N U]. destruct o; try (elim N; exact I); try (exists m; split; [reflexivity|split; reflexivity]).
  specialize (U eq_refl). destruct m as [g l st]. cbn in U. subst l. eexists. split; [reflexivity|]. split; [reflexivity|]. intros D. now elim D.
Qed.
End Future.
