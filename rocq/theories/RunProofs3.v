(** Whole models: the graph that the front end builds, and totality from the values of objective and constraints. *)
From Coq Require Import Relations Permutation Sorted.
From Verif Require Import Base Num ShapeModel GraphModel GraphSpec GraphProofs GraphProofs2 GraphProps ProposeModel ProposeSpec PyModel PySpec GenSpec PyProofs RunModel RunSpec RunSpec2.
Set Implicit Arguments.

(** Every symbol was made after those it is made of. *)
Definition in_order (m : pym) : Prop := forall x s, nth_error (p_syms m) x = Some s -> Forall (fun y => y < x) (s_pred s) /\ (source_cls (s_cls s) = true -> s_pred s = []).
Lemma in_order_ranked m : in_order m -> ranked m (fun x => x).
Proof.
  intros H x s E. destruct (H x s E) as [A B]. split; [|exact B]. assert (x < length (p_syms m)) by (apply nth_error_Some; congruence).
  eapply Forall_impl; [|exact A]. cbn beta. intros. lia.
Qed.

Lemma rfold_snoc A B (f : A -> B -> res A) l b : forall a a', rfold f a l = Ok a' -> rfold f a (l ++ [b]) = f a' b.
Proof. induction l as [|c l IH]; intros a a' H; cbn [rfold app] in *; [injection H as ->; destruct (f a' b); reflexivity|]. destruct (f a c); try discriminate. now apply IH. Qed.
Lemma rfold_app A B (f : A -> B -> res A) l l' : forall a a', rfold f a l = Ok a' -> rfold f a (l ++ l') = rfold f a' l'.
Proof. induction l as [|c l IH]; intros a a' H; cbn [rfold app] in *; [now injection H as ->|]. destruct (f a c); try discriminate. now apply IH. Qed.

Lemma nth_trues n : forall y, y < n -> nth y (repeat true n) false = true.
Proof. induction n as [|n IH]; intros [|y] H; try lia; [reflexivity|]. cbn. apply IH. lia. Qed.

Lemma early_late x ps : early x ps ++ late x ps = ps.
Proof. induction ps as [|p t IH]; [reflexivity|]. cbn [early late]. destruct (p <? x); [cbn; now rewrite IH|reflexivity]. Qed.
Lemma early_lt x ps : Forall (fun y => y < x) (early x ps).
Proof. induction ps as [|p t IH]; [constructor|]. cbn [early]. destruct (Nat.ltb_spec p x); constructor; auto. Qed.
Lemma made_snoc l s : forall x, made_from x (l ++ [s]) = made_from x l ++ [if source_cls (s_cls s) then GDecision else GAdd true (early (x + length l) (s_pred s))].
Proof.
  induction l as [|a l IH]; intros x; cbn [made_from app length]; [now rewrite Nat.add_0_r|]. rewrite IH. now replace (S x + length l) with (x + S (length l)) by lia.
Qed.

(** The nodes. *)
Lemma build_upto (l : list sym) :
  (forall x s, nth_error l x = Some s -> source_cls (s_cls s) = true -> s_pred s = []) ->
  exists g, history (made_from 0 l) = Ok g /\ gnodes g = seq 0 (length l) /\ length (gpred g) = length l /\ (forall x s, nth_error l x = Some s -> oget (gpred g) x = early x (s_pred s)) /\
    gsorted g = false /\ galive g = repeat true (length l) /\
    (forall x, In x (gdec g) <-> exists s, nth_error l x = Some s /\ source_cls (s_cls s) = true) /\
    length (gtopo g) = length l /\ (forall x, ~ In x (gdec g) -> nth x (gtopo g) (-1)%Z = (-1)%Z).
Proof.
  induction l as [|s l IH] using rev_ind; intros H.
  - exists g_empty. repeat split; try reflexivity; [intros [|x] s E; discriminate|intros []|intros (s & Hs & _); destruct x; discriminate|intros [|x] _; reflexivity].
  - destruct IH as (g & E & Hn & Hl & Hp & Hs & Ha & Hd & Ht & Hm).
    { intros x t Et. apply (H x). rewrite nth_error_app1; [exact Et|]. apply nth_error_Some. congruence. }
    pose proof (H (length l) s) as Hdc. rewrite nth_error_app2, Nat.sub_diag in Hdc by lia. specialize (Hdc eq_refl).
    assert (Hal : forallb (alive g) (early (length l) (s_pred s)) = true).
    { apply forallb_forall. intros y Hy. pose proof (early_lt (length l) (s_pred s)) as Hpr. rewrite Forall_forall in Hpr. specialize (Hpr y Hy). unfold alive. rewrite Ha. now apply nth_trues. }
    unfold history in *. rewrite made_snoc, (rfold_snoc _ _ _ _ E). cbn [Nat.add].
    assert (Hx : forall x, (exists t, nth_error (l ++ [s]) x = Some t /\ source_cls (s_cls t) = true) <-> (In x (gdec g) \/ (x = length l /\ source_cls (s_cls s) = true))).
    { intros x. rewrite Hd. split.
      - intros (t & Et & Hc). destruct (Nat.lt_ge_cases x (length l)); [rewrite nth_error_app1 in Et by assumption; left; eauto|]. rewrite nth_error_app2 in Et by assumption. destruct (x - length l) eqn:Ex; [|destruct n; discriminate]. injection Et as <-. right. split; [lia|exact Hc].
      - intros [(t & Et & Hc)|[-> Hc]]; [exists t; rewrite nth_error_app1; [auto|apply nth_error_Some; congruence]|]. exists s. rewrite nth_error_app2, Nat.sub_diag by lia. auto. }
    assert (Hq : forall q, q = early (length l) (s_pred s) -> forall x t, nth_error (l ++ [s]) x = Some t -> oget (gpred g ++ [q]) x = early x (s_pred t)).
    { intros q -> x t Et. unfold oget. destruct (Nat.lt_ge_cases x (length l)); [rewrite nth_error_app1 in Et by assumption; rewrite app_nth1 by lia; now apply Hp|].
      rewrite nth_error_app2 in Et by assumption. rewrite app_nth2 by lia. destruct (x - length l) eqn:Ex; [|destruct n; discriminate]. injection Et as <-. replace (x - length (gpred g)) with 0 by lia. cbn. f_equal. lia. }
    destruct (source_cls (s_cls s)) eqn:Ec; cbn [g_step]; unfold emplace_node; rewrite Hs.
    + cbn [forallb negb]. eexists. split; [reflexivity|]. cbn. rewrite Hn, Ha, !app_length, Hl, Ht. cbn. rewrite seq_app, repeat_app. repeat split; try reflexivity; try lia.
      * apply Hq. now rewrite (Hdc eq_refl).
      * intros Hi. apply Hx. apply in_app_iff in Hi. destruct Hi as [Hi|[<-|[]]]; auto.
      * intros Hi. apply Hx in Hi. apply in_app_iff. destruct Hi as [Hi|[-> _]]; [now left|right; now left].
      * intros x Hi. rewrite in_app_iff in Hi. destruct (Nat.lt_ge_cases x (length l)); [rewrite app_nth1 by lia; apply Hm; tauto|].
        rewrite nth_overflow; [reflexivity|]. rewrite app_length. cbn. assert (x <> length l) by (intros ->; apply Hi; right; now left). lia.
    + rewrite Hal. cbn [negb]. eexists. split; [reflexivity|]. cbn. rewrite Hn, Ha, !app_length, Hl, Ht. cbn. rewrite seq_app, repeat_app. repeat split; try reflexivity; try lia.
      * now apply Hq.
      * intros Hi. apply Hx. now left.
      * intros Hi. apply Hx in Hi. destruct Hi as [Hi|[_ Hi]]; [exact Hi|discriminate].
      * intros x Hi. destruct (Nat.lt_ge_cases x (length l)); [rewrite app_nth1 by lia; now apply Hm|]. destruct (Nat.eq_dec x (length l)) as [->|]; [rewrite app_nth2 by lia; now rewrite Ht, Nat.sub_diag|].
        rewrite nth_overflow; [reflexivity|]. rewrite app_length. cbn. lia.
Qed.

(** The predecessors added later. *)
Definition plus (g g' : graph) (es : list (nat * nat)) : Prop :=
  gnodes g' = gnodes g /\ gdec g' = gdec g /\ gsorted g' = gsorted g /\ galive g' = galive g /\ gtopo g' = gtopo g /\ length (gpred g') = length (gpred g) /\
  forall y, oget (gpred g') y = oget (gpred g) y ++ map snd (filter (fun e => fst e =? y) es).
Lemma oget_lset (l : list (list nat)) x v y : x < length l -> oget (lset x v l) y = if x =? y then v else oget l y.
Proof.
  intros H. unfold oget. destruct (Nat.eqb_spec x y) as [->|Hn]; [apply nth_error_nth; now apply nth_error_lset_eq|].
  destruct (nth_error l y) as [w|] eqn:E; [rewrite (nth_error_nth l y [] E); apply nth_error_nth; rewrite nth_error_lset_neq by auto; exact E|].
  apply nth_error_None in E. rewrite !nth_overflow; [reflexivity|exact E|now rewrite lset_length].
Qed.
Lemma add_edges n es : forall g, length (gpred g) = n -> galive g = repeat true n -> (forall x, ~ In x (gdec g) -> nth x (gtopo g) (-1)%Z = (-1)%Z) ->
  Forall (fun e => fst e < n /\ snd e < n /\ ~ In (fst e) (gdec g)) es ->
  exists g', rfold g_step g (map (fun e => GAddEdge (fst e) (snd e)) es) = Ok g' /\ plus g g' es.
Proof.
  induction es as [|[x p] es IH]; intros g Hl Ha Ht H.
  - exists g. split; [reflexivity|]. unfold plus. cbn. repeat split; auto. intros y. now rewrite app_nil_r.
  - inversion H as [|? ? (H1 & H2 & H3) H4]; subst. cbn [fst snd] in *. cbn [map rfold g_step fst snd].
    assert (E : exists g1, GraphModel.add_node g x p = Ok g1 /\ plus g g1 [(x, p)]).
    { unfold GraphModel.add_node, alive. rewrite Ha, !nth_trues by assumption. cbn [andb negb]. destruct (existsb (Nat.eqb x) (gdec g)) eqn:Ed.
      { exfalso. apply existsb_exists in Ed. destruct Ed as (z & Hz & Ez). apply Nat.eqb_eq in Ez. subst z. contradiction. }
      rewrite (Ht x H3). cbn [andb Z.leb Z.compare]. eexists. split; [reflexivity|]. unfold plus. cbn [gnodes gdec gsorted galive gtopo gpred]. repeat split; try reflexivity; try exact (eq_sym Ha); try apply lset_length.
      intros y. rewrite oget_lset by assumption. cbn [filter fst]. destruct (Nat.eqb_spec x y) as [<-|]; cbn; [reflexivity|now rewrite app_nil_r]. }
    destruct E as (g1 & E & P1 & P2 & P3 & P4 & P5 & P6 & P7). rewrite E.
    destruct (IH g1) as (g' & E' & Q1 & Q2 & Q3 & Q4 & Q5 & Q6 & Q7); [congruence|congruence|rewrite P2, P5; exact Ht|rewrite P2; exact H4|].
    exists g'. split; [exact E'|]. unfold plus. rewrite Q1, Q2, Q3, Q4, Q5, Q6. repeat split; auto. intros y. rewrite Q7, P7. cbn [filter fst]. destruct (Nat.eqb_spec x y); cbn [map snd app]; [now rewrite <- app_assoc|now rewrite app_nil_r].
Qed.
Fixpoint edges_from (x : nat) (l : list sym) : list (nat * nat) := match l with [] => [] | s :: t => map (fun p => (x, p)) (late x (s_pred s)) ++ edges_from (S x) t end.
Lemma added_edges l : forall x, added_from x l = map (fun e => GAddEdge (fst e) (snd e)) (edges_from x l).
Proof. induction l as [|s l IH]; intros x; [reflexivity|]. cbn [added_from edges_from]. rewrite map_app, map_map, IH. reflexivity. Qed.
Lemma edges_in l : forall x e, In e (edges_from x l) -> exists i s, nth_error l i = Some s /\ fst e = x + i /\ In (snd e) (late (x + i) (s_pred s)).
Proof.
  induction l as [|s l IH]; intros x e; [intros []|]. cbn [edges_from]. rewrite in_app_iff. intros [Hi|Hi].
  - apply in_map_iff in Hi. destruct Hi as (p & <- & Hp). exists 0, s. cbn. rewrite Nat.add_0_r. auto.
  - destruct (IH _ _ Hi) as (i & t & E1 & E2 & E3). exists (S i), t. replace (x + S i) with (S x + i) by lia. auto.
Qed.
Lemma filter_none {A} (f : A -> bool) l : (forall a, In a l -> f a = false) -> filter f l = [].
Proof. induction l as [|a l IH]; intros H; [reflexivity|]. cbn. rewrite (H a) by now left. apply IH. intros b Hb. apply H. now right. Qed.
Lemma filter_every {A} (f : A -> bool) l : (forall a, In a l -> f a = true) -> filter f l = l.
Proof. induction l as [|a l IH]; intros H; [reflexivity|]. cbn. rewrite (H a) by now left. f_equal. apply IH. intros b Hb. apply H. now right. Qed.
Lemma edges_filter l : forall x i s, nth_error l i = Some s -> map snd (filter (fun e => fst e =? x + i) (edges_from x l)) = late (x + i) (s_pred s).
Proof.
  induction l as [|a l IH]; intros x [|i] s E; try discriminate; cbn [edges_from]; rewrite filter_app, map_app.
  - injection E as <-. rewrite Nat.add_0_r. rewrite (filter_every (fun e => fst e =? x)) by (intros e He; apply in_map_iff in He; destruct He as (p & <- & _); cbn; apply Nat.eqb_refl).
    rewrite (filter_none (fun e => fst e =? x)); [cbn; rewrite app_nil_r, map_map; cbn; now rewrite map_id|]. intros e He. destruct (edges_in _ _ _ He) as (j & t & _ & Ef & _). apply Nat.eqb_neq. lia.
  - rewrite (filter_none (fun e => fst e =? x + S i)) by (intros e He; apply in_map_iff in He; destruct He as (p & <- & _); cbn; apply Nat.eqb_neq; lia).
    cbn [map app]. replace (x + S i) with (S x + i) by lia. now apply IH.
Qed.
Lemma late_in x ps p : In p (late x ps) -> In p ps.
Proof. intros H. rewrite <- (early_late x ps). apply in_app_iff. now right. Qed.

Theorem build_locked_gen m rank : ranked m rank -> exists g, history (build m) = Ok g /\ locked m g.
Proof.
  intros H. destruct (build_upto (p_syms m)) as (g & E & Hn & Hl & Hp & Hs & Ha & Hd & Ht & Hm); [intros x s Hx; apply (H x s Hx)|].
  destruct (@add_edges (length (p_syms m)) (edges_from 0 (p_syms m)) g Hl Ha Hm) as (g1 & E1 & P1 & P2 & P3 & P4 & P5 & P6 & P7).
  { apply Forall_forall. intros e He. destruct (edges_in _ _ _ He) as (i & s & Ei & Ef & Es). cbn [Nat.add] in *. apply late_in in Es. destruct (H _ _ Ei) as [H1 H2].
    rewrite Forall_forall in H1. rewrite Ef. split; [apply nth_error_Some; congruence|]. split; [now apply H1|]. intros Hi. apply Hd in Hi. destruct Hi as (t & Et & Ec).
    assert (t = s) by congruence. subst t. rewrite (H2 Ec) in Es. contradiction. }
  assert (Hpred : forall x s, nth_error (p_syms m) x = Some s -> oget (gpred g1) x = s_pred s).
  { intros x s Ex. rewrite P7, (Hp _ _ Ex). pose proof (edges_filter _ 0 _ Ex) as Q. cbn [Nat.add] in Q. rewrite Q. apply early_late. }
  assert (Hist : history (made_from 0 (p_syms m) ++ added_from 0 (p_syms m)) = Ok g1) by (unfold history in *; rewrite (rfold_app _ _ _ _ E), added_edges; exact E1).
  assert (Ac : acyclic g1).
  { assert (Hr : forall a b, clos_trans nat (edge g1) a b -> rank a < rank b).
    { intros a b T. induction T as [a b [Hb1 Hb2]|a b c _ I1 _ I2]; [|lia]. rewrite P1, Hn in Hb1. apply in_seq in Hb1.
      destruct (nth_error (p_syms m) b) as [s|] eqn:Eb; [|apply nth_error_None in Eb; lia]. rewrite (Hpred _ _ Eb) in Hb2. destruct (H _ _ Eb) as [H1 _]. rewrite Forall_forall in H1. now apply H1. }
    intros x Hx. specialize (Hr _ _ Hx). lia. }
  pose proof (C13_sort_topological _ _ Hist) as Q. rewrite P3, Hs in Q. specialize (Q eq_refl). destruct (topological_sort g1) as [g'| |] eqn:Es; [|contradiction|contradiction].
  destruct Q as (_ & _ & Pm & Sp & _ & Sd & _).
  assert (Ss : gsorted g' = true).
  { clear E1; unfold topological_sort in Es. rewrite P3, Hs in Es. destruct (rfold _ _ _) as [[tp c]| |]; try discriminate. injection Es as <-. reflexivity. }
  assert (Hh : history (build m) = Ok g'). { unfold build, history. rewrite app_assoc. rewrite (rfold_snoc _ _ _ _ Hist). exact Es. }
  assert (Hin : forall x, In x (gnodes g') <-> x < length (p_syms m)).
  { intros x. split; intros Hx; [apply (Permutation_in _ Pm) in Hx; rewrite P1, Hn in Hx; apply in_seq in Hx; lia|]. apply (Permutation_in _ (Permutation_sym Pm)). rewrite P1, Hn. apply in_seq. lia. }
  exists g'. split; [exact Hh|]. split; [eauto|]. split; [exact Ss|]. split.
  { intros x Hx. apply (Ac x). assert (Hed : forall a b, edge g' a b -> edge g1 a b).
    { intros a b [Hb1 Hb2]. split; [now apply (Permutation_in _ Pm)|now rewrite <- Sp]. }
    clear - Hx Hed. unfold reaches1 in *. revert Hx. generalize x at 2 4. intros y Hx. induction Hx as [a b H|a b c _ IH1 _ IH2]; [apply t_step; auto|eapply t_trans; eauto]. }
  split; [exact Hin|]. intros x s Hx. split.
  - rewrite Sp. now apply Hpred.
  - unfold is_decision. rewrite Sd, P2. change (is_decision g x = source_cls (s_cls s)). destruct (source_cls (s_cls s)) eqn:Ec.
    + apply is_dec_spec. apply Hd. eauto.
    + destruct (is_decision g x) eqn:Ed; [|reflexivity]. apply is_dec_spec in Ed. apply Hd in Ed. destruct Ed as (t & Et & Hc). congruence.
Qed.
Theorem build_locked m : in_order m -> exists g, history (build m) = Ok g /\ locked m g.
Proof. intros H. exact (build_locked_gen (in_order_ranked H)). Qed.

(** A symbol with a value gives values to those it is made of. *)
Lemma yields_preds m dv x s v : yields m dv x v -> nth_error (p_syms m) x = Some s -> decided_cls (s_cls s) = false -> Forall (fun y => exists w, yields m dv y w) (s_pred s).
Proof.
  intros H E Ec. inversion H as [x' s' Hs' Hc'|x' s' ins v' Hs' Hc' Hp Hm]; subst; assert (s' = s) by congruence; subst s'; [congruence|].
  clear - Hp. induction Hp; constructor; eauto.
Qed.

(** Both conditions can be computed. *)
Fixpoint orderb (k : nat) (l : list sym) : bool :=
  match l with
  | [] => true
  | s :: t => forallb (fun y => y <? k) (s_pred s) && (if source_cls (s_cls s) then match s_pred s with [] => true | _ => false end else true) && orderb (S k) t
  end.
Lemma orderb_nth l : forall k, orderb k l = true -> forall x s, nth_error l x = Some s -> Forall (fun y => y < k + x) (s_pred s) /\ (source_cls (s_cls s) = true -> s_pred s = []).
Proof.
  induction l as [|a l IH]; intros k H x s E; [destruct x; discriminate|]. cbn [orderb] in H. apply andb_true_iff in H. destruct H as [H H2]. apply andb_true_iff in H. destruct H as [H0 H1]. destruct x as [|x].
  - injection E as <-. rewrite Nat.add_0_r. split.
    + apply Forall_forall. intros y Hy. rewrite forallb_forall in H0. apply Nat.ltb_lt. now apply H0.
    + intros Hc. rewrite Hc in H1. now destruct (s_pred a).
  - replace (k + S x) with (S k + x) by lia. now apply IH.
Qed.
Lemma orderb_ok m : orderb 0 (p_syms m) = true -> in_order m.
Proof. intros H x s E. exact (orderb_nth _ _ H x E). Qed.

(** Every array is decided, one of [roots], or used by one that is not decided. *)
Definition usedb (l : list sym) (roots : list nat) (x : nat) : bool :=
  match nth_error l x with Some s => main_cls (s_cls s) || decided_cls (s_cls s) | None => false end ||
  existsb (Nat.eqb x) roots || existsb (fun y => match nth_error l y with Some s => negb (main_cls (s_cls s) || decided_cls (s_cls s)) && existsb (Nat.eqb x) (s_pred s) | None => false end) (seq (S x) (length l - S x)).
Definition coverb (l : list sym) (roots : list nat) : bool := forallb (usedb l roots) (seq 0 (length l)).
Lemma cover_total m roots dv : coverb (p_syms m) roots = true -> (forall x, In x roots -> exists v, yields m dv x v) -> forall x, array m x -> exists v, yields m dv x v.
Proof.
  intros H Hr x Ha. assert (Hx : x < length (p_syms m)) by (destruct Ha as (s & E & _); apply nth_error_Some; congruence).
  remember (length (p_syms m) - x) as k eqn:Ek. revert x Ek Hx Ha. induction k as [k IH] using (well_founded_induction lt_wf). intros x -> Hx (s & E & Hm).
  unfold coverb in H. rewrite forallb_forall in H. specialize (H x). unfold usedb in H. rewrite !orb_true_iff in H. rewrite E, Hm in H. cbn [orb] in H.
  destruct H as [[H|H]|H]; [apply in_seq; lia|exists (dv x); now apply y_dec with s|apply Hr|].
  - apply existsb_exists in H. destruct H as (y & Hy & Exy). apply Nat.eqb_eq in Exy. now subst y.
  - apply existsb_exists in H. destruct H as (y & Hy & Exy). apply in_seq in Hy. destruct (nth_error (p_syms m) y) as [t|] eqn:Es; [|discriminate]. apply andb_true_iff in Exy. destruct Exy as [Ec Ei].
    apply negb_true_iff in Ec. apply orb_false_iff in Ec. destruct Ec as [Emt Ec]. apply existsb_exists in Ei. destruct Ei as (z & Hz & Exz). apply Nat.eqb_eq in Exz. subst z.
    destruct (IH (length (p_syms m) - y)) with (x := y) as [v Hv]; [lia|reflexivity|lia|exists t; auto|]. pose proof (yields_preds Hv Es Ec) as P. rewrite Forall_forall in P. now apply P.
Qed.
