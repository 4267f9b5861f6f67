(** Proofs about the graph model: histories, searches and states. *)
From Verif Require Import Base GraphModel GraphSpec GraphProofs.
From Coq Require Import Relations Sorting.Sorted.

Notation inb n R := (existsb (Nat.eqb n) R).

(** ** Histories *)
Lemma empty_WF : WF g_empty.
Proof.
  constructor; cbn; auto; try apply NoDup_nil; try (intros; discriminate); try (intros; tauto).
  - intros n. unfold alive. destruct n; cbn; split; try tauto; discriminate.
  - unfold linked; cbn. split; tauto.
  - intros x [].
  - intros i d H. destruct i; discriminate.
  - intros x [].
Qed.

Lemma remove_cases g il : WF g ->
  match topological_sort g with
  | Ok gs => exists g' R, remove_unused_nodes g il = Ok (g', length (gnodes g) - length (gnodes g')) /\ removed gs g' il R
  | Throw => remove_unused_nodes g il = Throw
  | UB => False
  end.
Proof.
  intros H. destruct (topological_sort g) as [gs| |] eqn:E.
  - assert (Hs : gsorted gs = true /\ length (gnodes gs) = length (gnodes g)).
    { destruct (gsorted g) eqn:Es.
      - unfold topological_sort in E. rewrite Es in E. injection E as <-. auto.
      - pose proof (sort_cases g H Es) as Hc. rewrite E in Hc. destruct Hc as [bl [tp [-> [HP _]]]].
        split; auto. cbn. now rewrite (Permutation_length HP). }
    destruct Hs as [Hs Hl].
    destruct (remove_sorted gs il (sort_WF g gs H E) Hs) as [g' [R [E' HR]]].
    exists g', R. split; auto. unfold remove_unused_nodes in *. rewrite E.
    assert (Es : topological_sort gs = Ok gs) by (unfold topological_sort; now rewrite Hs).
    rewrite Es in E'. now rewrite <- Hl.
  - unfold remove_unused_nodes. now rewrite E.
  - destruct (gsorted g) eqn:Es.
    + unfold topological_sort in E. rewrite Es in E. discriminate.
    + pose proof (sort_cases g H Es) as Hc. rewrite E in Hc. auto.
Qed.

Lemma step_WF g o g' : WF g -> g_step g o = Ok g' -> WF g'.
Proof.
  intros H. destruct o; cbn [g_step].
  - intros E. eapply emplace_WF; eauto.
  - intros E. eapply emplace_WF; eauto. discriminate.
  - apply add_node_WF; auto.
  - apply sort_WF; auto.
  - intros E. injection E as <-. now apply reset_WF.
  - pose proof (remove_cases g ignore_listeners H) as Hc.
    destruct (topological_sort g) as [gs| |].
    + destruct Hc as [g1 [R [-> HR]]]. intros E. injection E as <-. apply HR.
    + rewrite Hc. discriminate.
    + destruct Hc.
  - unfold set_objective. destruct (alive g n) eqn:Ea; [|discriminate]. intros E. injection E as <-.
    destruct H; constructor; auto. cbn. intros m Hm. injection Hm as <-. now apply wf_al.
  - unfold add_constraint. destruct (alive g n) eqn:Ea; [|discriminate]. intros E. injection E as <-.
    destruct H; constructor; auto. cbn. intros m Hm. apply in_app_iff in Hm.
    destruct Hm as [Hm | [<- | []]]; auto. now apply wf_al.
  - unfold set_listen. destruct (alive g n) eqn:Ea; [|discriminate]. intros E. injection E as <-.
    destruct H; constructor; auto. cbn. now rewrite lset_length.
Qed.

Lemma rfold_app {A B} (f : A -> B -> res A) a l1 l2 :
  rfold f a (l1 ++ l2) = match rfold f a l1 with Ok a' => rfold f a' l2 | Throw => Throw | UB => UB end.
Proof. revert a; induction l1 as [|b t IH]; intros a; cbn; auto. destruct (f a b); auto. Qed.

Lemma rfold_inv {A B} (f : A -> B -> res A) (P : A -> Prop) (Q : B -> Prop) l : forall a a',
  (forall a b a', P a -> Q b -> f a b = Ok a' -> P a') ->
  P a -> (forall b, In b l -> Q b) -> rfold f a l = Ok a' -> P a'.
Proof.
  induction l as [|b l IH]; cbn; intros a a' Hf Ha Hl E.
  - injection E as <-. auto.
  - destruct (f a b) as [a1| |] eqn:E1; try discriminate.
    apply (IH a1 a'); auto. eapply Hf; eauto.
Qed.

Lemma history_WF ops g : history ops = Ok g -> WF g.
Proof.
  intros E. apply (rfold_inv g_step WF (fun _ => True) ops g_empty g); auto.
  - intros a b a' Ha _ Es. eapply step_WF; eauto.
  - apply empty_WF.
Qed.

(** Without [add_node], creation order is a topological order. *)
Record Inc (g : graph) : Prop := {
  inc_wf : WF g;
  inc_nd : StronglySorted lt (nondec g);
  inc_dec : StronglySorted lt (gdec g);
  inc_edge : forall p n, edge g p n -> p < n }.

Lemma sorted_snoc l n : StronglySorted lt l -> (forall x, In x l -> x < n) -> StronglySorted lt (l ++ [n]).
Proof.
  induction 1 as [|a l Hs IH Hf]; cbn; intros Hl.
  - repeat constructor.
  - constructor; [apply IH; auto|]. apply Forall_app. split; auto.
Qed.
Lemma sorted_filter (f : nat -> bool) l : StronglySorted lt l -> StronglySorted lt (filter f l).
Proof.
  induction 1 as [|a l Hs IH Hf]; cbn; [constructor|]. destruct (f a); auto. constructor; auto.
  apply Forall_forall. intros x Hx. apply filter_In in Hx. rewrite Forall_forall in Hf. apply Hf. tauto.
Qed.
Lemma sorted_after l1 n l2 m : StronglySorted lt (l1 ++ n :: l2) -> In m (l1 ++ n :: l2) -> n < m -> In m l2.
Proof.
  intros Hs Hm Hl. apply in_app_iff in Hm. destruct Hm as [Hm | [-> | Hm]]; auto; [|lia].
  exfalso. induction l1 as [|a l1 IH]; [destruct Hm|]. cbn in Hs. inversion Hs as [|? ? Hs' Hf]; subst.
  destruct Hm as [-> | Hm]; auto. rewrite Forall_forall in Hf.
  assert (m < n) by (apply Hf, in_app_iff; right; left; auto). lia.
Qed.

Lemma Inc_TL g : Inc g -> TL (gsucc g) (nondec g).
Proof.
  intros [H Hn _ He].
  assert (Hgen : forall l1 l2, nondec g = l1 ++ l2 -> TL (gsucc g) l2); [|now apply (Hgen [])].
  intros l1 l2. revert l1. induction l2 as [|n l2 IH]; intros l1 El; [constructor|].
  constructor; [|apply (IH (l1 ++ [n])); rewrite <- app_assoc; auto].
  intros m Hm.
  assert (Hni : In n (gnodes g)).
  { assert (Hx : In n (nondec g)) by (rewrite El; apply in_app_iff; right; left; auto). now apply nondec_in in Hx. }
  assert (Ed : edge g n m) by (apply edge_succ; auto).
  apply (sorted_after l1 n l2 m); [now rewrite <- El| |now apply He].
  rewrite <- El. apply nondec_in. split; [apply Ed|]. now apply (edge_nondec g n m).
Qed.

Lemma sort_Inc g : Inc g -> gsorted g = false ->
  exists tp, topological_sort g = Ok (with_order g (gdec g ++ nondec g) tp) /\
             order_of g (with_order g (gdec g ++ nondec g) tp) (nondec g) tp.
Proof. intros H Hs. apply sort_ordered; auto; [apply H|]. now apply Inc_TL. Qed.

Lemma filter_nil {A} (f : A -> bool) l : (forall x, In x l -> f x = false) -> filter f l = [].
Proof.
  induction l as [|x l IH]; intros H; cbn; auto. rewrite H by (left; auto). apply IH.
  intros y Hy; apply H; right; auto.
Qed.

Lemma nondec_order g rest : NoDup (gdec g ++ rest) ->
  filter (fun n => negb (inb n (gdec g))) (gdec g ++ rest) = rest.
Proof.
  intros Hnd. rewrite filter_app, filter_nil, filter_noop; auto.
  - intros x Hx. apply negb_true_iff, not_true_iff_false. rewrite existsb_In. intros Hx'.
    apply (NoDup_app_disj _ _ Hnd x); auto.
  - intros x Hx. apply negb_false_iff, existsb_In; auto.
Qed.

Lemma sort_step_Inc g g' : Inc g -> topological_sort g = Ok g' -> Inc g'.
Proof.
  intros H E. destruct (gsorted g) eqn:Es.
  - unfold topological_sort in E. rewrite Es in E. injection E as <-. auto.
  - destruct (sort_Inc g H Es) as [tp [E' Ho]]. rewrite E in E'. injection E' as ->.
    pose proof (order_WF g (inc_wf _ H) Es _ _ _ Ho) as Hw.
    constructor; auto.
    + unfold nondec at 1. unfold is_decision. cbn [gnodes gdec with_order].
      rewrite nondec_order; [apply H|]. apply Hw.
    + apply H.
    + intros p n Ed. apply (inc_edge _ H). destruct Ho as [_ [HP _]].
      apply edge_perm in Ed; auto.
Qed.

Lemma step_Inc g o g' : Inc g -> no_add_edge o = true -> g_step g o = Ok g' -> Inc g'.
Proof.
  intros H Hno E. pose proof (step_WF g o g' (inc_wf _ H) E) as Hw.
  assert (Hemp : forall d r ps, emplace_node g d r ps = Ok g' -> Inc g').
  { intros d r ps. unfold emplace_node. destruct (gsorted g) eqn:Es; [discriminate|].
    destruct (forallb (alive g) ps) eqn:Ef; [|discriminate]. cbn [negb]. intros E1. injection E1 as <-.
    rewrite forallb_forall in Ef.
    assert (Hlt : forall p, In p (gnodes g) -> p < length (gpred g)) by (intros; apply alive_lt; auto; apply H).
    assert (Hfresh : ~ In (length (gpred g)) (gnodes g)) by (intros Hn; specialize (Hlt _ Hn); lia).
    constructor; auto.
    - unfold nondec, is_decision. cbn [gnodes gdec].
      rewrite filter_app. destruct d; cbn [filter].
      + replace (inb (length (gpred g)) (gdec g ++ [length (gpred g)])) with true.
        * cbn [negb]. rewrite app_nil_r.
          replace (filter _ (gnodes g)) with (nondec g); [apply H|].
          unfold nondec, is_decision. apply filter_ext_in. intros x Hx. f_equal. rewrite existsb_app. cbn [existsb].
          destruct (Nat.eqb_spec x (length (gpred g))) as [-> | _]; [tauto|]. now rewrite !orb_false_r.
        * symmetry. apply existsb_In, in_app_iff. right; left; auto.
      + replace (inb (length (gpred g)) (gdec g)) with false.
        * cbn [negb]. apply sorted_snoc; [apply H|]. intros x Hx. apply Hlt.
          now apply filter_In in Hx.
        * symmetry. apply not_true_iff_false. rewrite existsb_In. intros Hx. apply Hfresh.
          now apply (wf_di _ (inc_wf _ H)).
    - cbn [gdec]. destruct d; [|apply H]. apply sorted_snoc; [apply H|]. intros x Hx. apply Hlt.
      now apply (wf_di _ (inc_wf _ H)).
    - intros p n [Hn Hp]. cbn [gnodes gpred] in *. rewrite oget_snoc in Hp.
      destruct (Nat.eqb_spec n (length (gpred g))) as [-> | Hne].
      + apply Hlt. apply (wf_al _ (inc_wf _ H)). auto.
      + apply (inc_edge _ H). split; auto. apply in_app_iff in Hn. destruct Hn as [Hn | [<- | []]]; [auto|tauto]. }
  destruct o; cbn [g_step] in E; try discriminate; eauto.
  - eapply sort_step_Inc; eauto.
  - injection E as <-. destruct (gsorted g) eqn:Es; unfold reset_topological_sort; rewrite Es; auto.
    cbn [negb]. unfold reset_topological_sort in Hw. rewrite Es in Hw. cbn [negb] in Hw.
    destruct H; constructor; auto.
  - pose proof (remove_cases g ignore_listeners (inc_wf _ H)) as Hc.
    destruct (topological_sort g) as [gs| |] eqn:Es; [|rewrite Hc in E; discriminate|destruct Hc].
    destruct Hc as [g1 [R [E1 HR]]]. rewrite E1 in E. injection E as <-.
    assert (Hs : Inc gs) by (eapply sort_step_Inc; eauto).
    constructor; auto.
    + unfold nondec, is_decision. rewrite (rm_nodes _ _ _ _ HR), (rm_dec _ _ _ _ HR).
      rewrite filter_filter. pose proof (sorted_filter (fun n => negb (inb n R)) _ (inc_nd _ Hs)) as Hx.
      unfold nondec, is_decision in Hx. rewrite filter_filter in Hx. erewrite filter_ext; [exact Hx|].
      intros a. cbn. apply andb_comm.
    + rewrite (rm_dec _ _ _ _ HR). apply Hs.
    + intros p n [Hn Hp]. apply (inc_edge _ Hs). split.
      * rewrite (rm_nodes _ _ _ _ HR) in Hn. now apply filter_In in Hn.
      * now rewrite (rm_pred _ _ _ _ HR) in Hp.
  - unfold set_objective in E. destruct (alive g n); [|discriminate]. injection E as <-. destruct H; constructor; auto.
  - unfold add_constraint in E. destruct (alive g n); [|discriminate]. injection E as <-. destruct H; constructor; auto.
  - unfold set_listen in E. destruct (alive g n); [|discriminate]. injection E as <-. destruct H; constructor; auto.
Qed.

Lemma empty_Inc : Inc g_empty.
Proof.
  constructor; [apply empty_WF|constructor|constructor|]. intros p n [[] _].
Qed.

Lemma history_Inc ops g : history ops = Ok g -> forallb no_add_edge ops = true -> Inc g.
Proof.
  intros E Hno. rewrite forallb_forall in Hno.
  apply (rfold_inv g_step Inc (fun o => no_add_edge o = true) ops g_empty g); auto.
  - intros a b a' Ha Hb Es. eapply step_Inc; eauto.
  - apply empty_Inc.
Qed.

(** [topo_ordered] *)
Lemma before_nth l a b i j : i < j -> nth_error l i = Some a -> nth_error l j = Some b -> before l a b.
Proof.
  intros Hij Hi Hj. destruct (nth_error_split l i Hi) as [l1 [l2 [-> <-]]].
  rewrite nth_error_app2 in Hj by lia. destruct (j - length l1) as [|k] eqn:Ek; [lia|]. cbn in Hj.
  destruct (nth_error_split l2 k Hj) as [l3 [l4 [-> _]]]. exists l1, l3, l4. reflexivity.
Qed.

Lemma order_topo g g' bl tp : WF g -> gsorted g = false -> order_of g g' bl tp -> topo_ordered g'.
Proof.
  intros H Hs Ho. pose proof (order_WF g H Hs _ _ _ Ho) as Hw.
  pose proof (order_edge g H Hs _ _ _ Ho) as Hoe.
  pose proof Ho as [-> [HP [Hl [HT Hk]]]].
  split; [apply Hw|]. split; [exists bl; reflexivity|]. split.
  - intros p n Ed. apply edge_perm in Ed; auto. destruct (Hoe p n Ed) as [i [j [Hij [Hi Hj]]]].
    eapply before_nth; eauto.
  - intros i n Hn. cbn in *. rewrite tkey_nth; [now rewrite (Hk i n Hn)|].
    rewrite Hl, (wf_lt _ H). apply alive_lt; auto. eapply Permutation_in; [exact HP|]. eapply nth_error_In; eauto.
Qed.

(** Sorting again gives the same. *)
Lemma tp_ext tp tp' : length tp = length tp' -> (forall n, n < length tp -> tkey tp n = tkey tp' n) -> tp = tp'.
Proof.
  intros Hl Hk. apply nth_error_ext. intros i.
  destruct (Nat.lt_ge_cases i (length tp)) as [Hi|Hi].
  - rewrite !tkey_nth by lia. f_equal. auto.
  - rewrite (proj2 (nth_error_None tp i)) by lia. rewrite (proj2 (nth_error_None tp' i)) by lia. auto.
Qed.

Lemma sort_keeps_other g g' : WF g -> gsorted g = false -> topological_sort g = Ok g' ->
  forall n, ~ In n (gnodes g) -> tkey (gtopo g') n = tkey (gtopo g) n.
Proof.
  intros H Hs E n Hn.
  unfold topological_sort in E. rewrite Hs in E.
  pose proof (rfold_visit_top (gsucc g) (galive g) (gtopo g) (nondec g)
    (Z.of_nat (length (gnodes g)) - 1) (s_lt g H) (s_succ g H) (s_W g H Hs) (s_nn g H Hs) (s_N g H Hs)
    (S (length (gtopo g))) (s_fuel g H Hs)
    (rev (gnodes g)) (gtopo g) (Z.of_nat (length (gnodes g)) - 1) []) as Hr.
  destruct (rfold _ _ (rev (gnodes g))) as [[tp c]| |]; try discriminate. injection E as <-.
  destruct Hr as [bl [HD Hin]].
  - apply DI_start. auto.
  - intros m Hm. apply in_rev in Hm. now apply (wf_al _ H).
  - cbn. rewrite app_nil_r in HD. apply (di_rest _ _ _ _ _ _ _ _ HD); [|intros []].
    intros Hb. apply (di_W _ _ _ _ _ _ _ _ HD) in Hb. apply nondec_in in Hb. tauto.
Qed.

Lemma reset_of_sort g g' : WF g -> gsorted g = false -> topological_sort g = Ok g' ->
  gtopo (reset_topological_sort g') = gtopo g.
Proof.
  intros H Hs E. pose proof (sort_keeps_other g g' H Hs E) as Hother.
  pose proof (sort_cases g H Hs) as Hc. rewrite E in Hc. destruct Hc as [bl [tp Ho]].
  pose proof (order_WF g H Hs _ _ _ Ho) as Hw. pose proof Ho as [Eg [HP [Hl [HT Hk]]]].
  assert (Hlen : length (gtopo (reset_topological_sort g')) = length (gtopo g)).
  { rewrite (wf_lt _ (reset_WF g' Hw)). rewrite (wf_lt _ H). subst g'. reflexivity. }
  apply tp_ext; auto. intros n _.
  rewrite (reset_tkey g' bl n); try (subst g'; reflexivity); [|apply Hw|].
  2:{ intros m Hm. rewrite (wf_lt _ Hw). now apply alive_lt. }
  assert (Hbl : forall m, In m bl <-> In m (nondec g)).
  { assert (HP' : Permutation bl (nondec g)).
    { eapply Permutation_app_inv_l. rewrite HP. symmetry. now apply dec_nondec_perm. }
    intros m; split; apply Permutation_in; auto. now symmetry. }
  destruct (inb n bl) eqn:Ei.
  - apply existsb_In, Hbl, nondec_in in Ei. symmetry. now apply (wf_u _ H).
  - destruct (in_dec Nat.eq_dec n (gnodes g)) as [Hn|Hn]; [|now apply Hother].
    assert (Hd : In n (gdec g)).
    { destruct (in_dec Nat.eq_dec n (gdec g)); auto. exfalso.
      apply not_true_iff_false in Ei. apply Ei. apply existsb_In, Hbl, nondec_in. auto. }
    destruct (In_nth_error _ _ Hd) as [i Hi]. rewrite (wf_dt _ H i n Hi).
    rewrite (wf_dt _ Hw i n); auto. subst g'; auto.
Qed.

Lemma resort g g' : WF g -> gsorted g = false -> topological_sort g = Ok g' ->
  topological_sort (reset_topological_sort g') = Ok g'.
Proof.
  intros H Hs E. pose proof (reset_of_sort g g' H Hs E) as Hreset.
  pose proof (sort_keeps_other g g' H Hs E) as Hother.
  pose proof (sort_cases g H Hs) as Hc. rewrite E in Hc. destruct Hc as [bl [tp Ho]].
  pose proof (order_WF g H Hs _ _ _ Ho) as Hw. pose proof (reset_WF g' Hw) as Hw'.
  pose proof Ho as [Eg [HP [Hl [HT Hk]]]].
  set (g2 := reset_topological_sort g') in *.
  assert (Ef : gnodes g2 = gdec g ++ bl /\ gdec g2 = gdec g /\ gsucc g2 = gsucc g /\ gpred g2 = gpred g /\
               gsorted g2 = false /\ gobj g2 = gobj g /\ gcons g2 = gcons g /\ galive g2 = galive g /\
               glisten g2 = glisten g /\ gremov g2 = gremov g).
  { unfold g2, reset_topological_sort. subst g'. cbn. repeat split; auto. }
  destruct Ef as [F1 [F2 [F3 [F4 [F5 [F6 [F7 [F8 [F9 F10]]]]]]]]].
  assert (Hnd : nondec g2 = bl).
  { unfold nondec, is_decision. rewrite F1, F2. apply (nondec_order g bl).
    rewrite <- F1. apply Hw'. }
  destruct (sort_ordered g2 Hw' F5) as [tp2 [E2 Ho2]]; [rewrite Hnd, F3; auto|].
  rewrite E2. f_equal. rewrite Eg. unfold with_order. rewrite F2, F3, F4, F6, F7, F8, F9, F10, Hnd.
  f_equal. destruct Ho2 as [_ [HP2 [Hl2 [HT2 Hk2]]]]. rewrite Hnd, F2 in *.
  apply tp_ext; [congruence|]. intros n _.
  destruct (in_dec Nat.eq_dec n (gdec g ++ bl)) as [Hn|Hn].
  - destruct (In_nth_error _ _ Hn) as [i Hi]. now rewrite (Hk i n Hi), (Hk2 i n Hi).
  - pose proof (sort_keeps_other g2 _ Hw' F5 E2 n) as Ho2. cbn [gtopo with_order] in Ho2.
    rewrite Ho2 by (now rewrite F1). rewrite Hreset. rewrite Eg in Hother. cbn in Hother.
    symmetry. apply Hother. intros Hx. apply Hn. eapply Permutation_in; [symmetry; exact HP|auto].
Qed.

(** Decisions keep their index for ever. *)
Lemma step_dec g o g' : g_step g o = Ok g' -> WF g -> exists more, gdec g' = gdec g ++ more.
Proof.
  intros E H. assert (Hs : forall g1, topological_sort g = Ok g1 -> gdec g1 = gdec g).
  { intros g1 E1. unfold topological_sort in E1. destruct (gsorted g); [injection E1 as <-; auto|].
    destruct (rfold _ _ _) as [[? ?]| |]; try discriminate. injection E1 as <-. auto. }
  destruct o; cbn [g_step] in E.
  - unfold emplace_node in E. destruct (gsorted g); [discriminate|]. destruct (negb _); [discriminate|].
    injection E as <-. cbn. eauto.
  - unfold emplace_node in E. destruct (gsorted g); [discriminate|]. destruct (negb _); [discriminate|].
    injection E as <-. cbn. exists []. now rewrite app_nil_r.
  - unfold add_node in E. destruct (negb _); [discriminate|]. destruct (existsb _ _); [discriminate|].
    destruct (_ && _ && _); [discriminate|]. injection E as <-. exists []. cbn. now rewrite app_nil_r.
  - exists []. rewrite app_nil_r. auto.
  - injection E as <-. exists []. rewrite app_nil_r. unfold reset_topological_sort. now destruct (gsorted g).
  - pose proof (remove_cases g ignore_listeners H) as Hc.
    destruct (topological_sort g) as [gs| |] eqn:Es; [|rewrite Hc in E; discriminate|destruct Hc].
    destruct Hc as [g1 [R [E1 HR]]]. rewrite E1 in E. injection E as <-.
    exists []. rewrite app_nil_r, (rm_dec _ _ _ _ HR). auto.
  - unfold set_objective in E. destruct (alive g n); [|discriminate]. injection E as <-. exists []. cbn. now rewrite app_nil_r.
  - unfold add_constraint in E. destruct (alive g n); [|discriminate]. injection E as <-. exists []. cbn. now rewrite app_nil_r.
  - unfold set_listen in E. destruct (alive g n); [|discriminate]. injection E as <-. exists []. cbn. now rewrite app_nil_r.
Qed.

Lemma history_dec ops2 : forall g1 g2, WF g1 -> rfold g_step g1 ops2 = Ok g2 -> exists more, gdec g2 = gdec g1 ++ more.
Proof.
  induction ops2 as [|o ops IH]; cbn; intros g1 g2 H E.
  - injection E as <-. exists []. now rewrite app_nil_r.
  - destruct (g_step g1 o) as [g| |] eqn:E1; try discriminate.
    destruct (step_dec g1 o g E1 H) as [m1 D1]. destruct (IH g g2 (step_WF g1 o g H E1) E) as [m2 D2].
    exists (m1 ++ m2). now rewrite D2, D1, app_assoc.
Qed.
