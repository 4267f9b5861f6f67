(** Properties C13-C16, C18, C19, C49: the model graph. *)
From Verif Require Import Base GraphModel GraphSpec GraphProofs GraphProofs2 GraphProofs3.
From Coq Require Import Relations Sorting.Sorted.

(** A running example: two decisions, five other nodes, objective 4, constraint 5; 6 is unused,
    3 is read twice by 4; the second decision comes after other nodes. *)
Definition ex_ops : list gop :=
  [GDecision; GAdd true [0]; GDecision; GAdd true [1; 2]; GAdd true [3; 0; 3]; GAdd true [1];
   GAdd true [3]; GObjective 4; GConstraint 5].
Definition ex_g : graph := Eval vm_compute in match history ex_ops with Ok g => g | _ => g_empty end.
Definition ex_gs : graph := Eval vm_compute in match history (ex_ops ++ [GSort]) with Ok g => g | _ => g_empty end.
Example ex_g_ok : history ex_ops = Ok ex_g. Proof. vm_compute; reflexivity. Qed.
Example ex_gs_ok : history (ex_ops ++ [GSort]) = Ok ex_gs. Proof. vm_compute; reflexivity. Qed.
(** The same graph with a cycle: node 3 gets its own descendant 4 as another operand. *)
Definition ex_cyc : graph := Eval vm_compute in match history (ex_ops ++ [GAddEdge 3 4]) with Ok g => g | _ => g_empty end.
Example ex_cyc_ok : history (ex_ops ++ [GAddEdge 3 4]) = Ok ex_cyc. Proof. vm_compute; reflexivity. Qed.

(** ** C13 *)

(** Sorting any graph that can be built, at any point of its history, either gives a topological
    order or, exactly when there is a cycle, is refused. *)
Theorem C13_sort_topological : forall ops g, history ops = Ok g -> gsorted g = false ->
  match topological_sort g with
  | Ok g' => acyclic g /\ topo_ordered g' /\ Permutation (gnodes g') (gnodes g) /\
             gpred g' = gpred g /\ gsucc g' = gsucc g /\ gdec g' = gdec g /\ topological_sort g' = Ok g'
  | Throw => ~ acyclic g
  | UB => False
  end.
Proof.
  intros ops g Hh Hs. pose proof (history_WF ops g Hh) as H.
  pose proof (sort_cases g H Hs) as Hc. destruct (topological_sort g) as [g'| |] eqn:E; auto.
  destruct Hc as [bl [tp Ho]]. split; [eapply order_acyclic; eauto|]. split; [eapply order_topo; eauto|].
  destruct Ho as [-> [HP _]]. cbn. repeat split; auto.
Qed.
Print Assumptions C13_sort_topological.

Example C13_sort_topological_ex :
  history ex_ops = Ok ex_g /\ gsorted ex_g = false /\ gnodes ex_g = [0; 1; 2; 3; 4; 5; 6] /\
  (exists g', topological_sort ex_g = Ok g' /\ gnodes g' = [0; 2; 1; 3; 4; 5; 6]) /\
  history (ex_ops ++ [GAddEdge 3 4]) = Ok ex_cyc /\ topological_sort ex_cyc = Throw.
Proof.
  split; [apply ex_g_ok|]. split; [reflexivity|]. split; [reflexivity|].
  split; [eexists; split; [vm_compute; reflexivity|reflexivity]|]. split; [apply ex_cyc_ok|vm_compute; reflexivity].
Qed.

(** When [add_node] is not used, sorting never fails and keeps creation order: first the decisions,
    then all other nodes, both in the order in which they were created. *)
Theorem C13_creation_order : forall ops g, history ops = Ok g -> forallb no_add_edge ops = true ->
  exists g', topological_sort g = Ok g' /\ acyclic g /\
    gnodes g' = gdec g ++ filter (fun n => negb (is_decision g n)) (gnodes g) /\
    StronglySorted lt (gdec g) /\ StronglySorted lt (filter (fun n => negb (is_decision g n)) (gnodes g)).
Proof.
  intros ops g Hh Hno. pose proof (history_Inc ops g Hh Hno) as H.
  assert (Ha : acyclic g).
  { intros n Hn. assert (Hlt : forall a b, reaches1 g a b -> a < b).
    { intros a b Hab. induction Hab as [a b E|a b c H1 IH1 H2 IH2]; [|lia]. now apply (inc_edge _ H). }
    specialize (Hlt n n Hn). lia. }
  destruct (gsorted g) eqn:Hs.
  - exists g. unfold topological_sort. rewrite Hs. split; auto. split; auto.
    destruct (wf_s _ (inc_wf _ H) Hs) as [[rest Er] _]. split; [|split; apply H].
    rewrite Er at 2. unfold is_decision. rewrite nondec_order; auto. rewrite <- Er. apply H.
  - destruct (sort_Inc g H Hs) as [tp [E Ho]]. eexists. split; [exact E|]. split; auto. cbn.
    split; [reflexivity|]. split; apply H.
Qed.
Print Assumptions C13_creation_order.

Example C13_creation_order_ex : history ex_ops = Ok ex_g /\ forallb no_add_edge ex_ops = true.
Proof. split; [apply ex_g_ok|reflexivity]. Qed.

(** [NaryOpNode::add_node] (the in-place [+=] of the Python interface) can make a model cyclic, which
    then cannot be locked any more. *)
Theorem C13_add_node_cycle_refuted : exists ops g, history ops = Ok g /\
  (exists ops' o, ops = ops' ++ [o] /\ no_add_edge o = false /\ forallb no_add_edge ops' = true) /\
  ~ acyclic g /\ topological_sort g = Throw.
Proof.
  exists (ex_ops ++ [GAddEdge 3 4]), ex_cyc. split; [apply ex_cyc_ok|].
  split; [exists ex_ops, (GAddEdge 3 4); repeat split; reflexivity|].
  assert (E : topological_sort ex_cyc = Throw) by (vm_compute; reflexivity). split; auto.
  pose proof (C13_sort_topological _ _ ex_cyc_ok eq_refl) as Hc. now rewrite E in Hc.
Qed.
Print Assumptions C13_add_node_cycle_refuted.

(** ** C14 *)

(** A sorted graph takes no further nodes. *)
Theorem C14_locked_refuses : forall g dec removable preds, gsorted g = true ->
  emplace_node g dec removable preds = Throw.
Proof. intros g d r ps Hs. unfold emplace_node. now rewrite Hs. Qed.
Print Assumptions C14_locked_refuses.
Example C14_locked_refuses_ex : gsorted ex_gs = true. Proof. reflexivity. Qed.

(** Undoing a sort gives every node back the index it had; sorting once more gives the same graph;
    and undoing keeps the links. *)
Theorem C14_sort_reset_sort : forall ops g g', history ops = Ok g -> gsorted g = false ->
  topological_sort g = Ok g' ->
  gsorted (reset_topological_sort g') = false /\
  gtopo (reset_topological_sort g') = gtopo g /\ gpred (reset_topological_sort g') = gpred g /\
  gsucc (reset_topological_sort g') = gsucc g /\ Permutation (gnodes (reset_topological_sort g')) (gnodes g) /\
  topological_sort (reset_topological_sort g') = Ok g'.
Proof.
  intros ops g g' Hh Hs E. pose proof (history_WF ops g Hh) as H.
  pose proof (sort_cases g H Hs) as Hc. rewrite E in Hc. destruct Hc as [bl [tp [Eg [HP _]]]].
  split; [subst g'; reflexivity|]. split; [now apply reset_of_sort|].
  split; [subst g'; reflexivity|]. split; [subst g'; reflexivity|]. split; [subst g'; exact HP|].
  now apply resort with g.
Qed.
Print Assumptions C14_sort_reset_sort.

Example C14_sort_reset_sort_ex : history ex_ops = Ok ex_g /\ gsorted ex_g = false /\ topological_sort ex_g = Ok ex_gs /\
  gtopo ex_g = [0; -1; 1; -1; -1; -1; -1]%Z /\ gtopo ex_gs = [0; 2; 1; 3; 4; 5; 6]%Z.
Proof.
  split; [apply ex_g_ok|]. split; [vm_compute; reflexivity|]. split; [vm_compute; reflexivity|].
  split; vm_compute; reflexivity.
Qed.

(** At every point of every history: each node is listed once; without a topological order exactly
    the decisions have an index; and a decision has its index, namely its place among the decisions,
    from its creation on for ever. *)
Theorem C14_indices : forall ops1 ops2 g1 g2, history ops1 = Ok g1 -> history (ops1 ++ ops2) = Ok g2 ->
  NoDup (gnodes g2) /\
  (forall i d, nth_error (gdec g1) i = Some d ->
     In d (gnodes g2) /\ nth_error (gdec g2) i = Some d /\ nth_error (gtopo g2) d = Some (Z.of_nat i)) /\
  (gsorted g2 = false -> forall n, In n (gnodes g2) -> ~ In n (gdec g2) -> nth_error (gtopo g2) n = Some (-1)%Z) /\
  (gsorted g2 = true -> forall i n, nth_error (gnodes g2) i = Some n -> nth_error (gtopo g2) n = Some (Z.of_nat i)).
Proof.
  intros ops1 ops2 g1 g2 H1 H2. pose proof (history_WF _ _ H1) as W1. pose proof (history_WF _ _ H2) as W2.
  assert (Hk : forall n, In n (gnodes g2) -> nth_error (gtopo g2) n = Some (tkey (gtopo g2) n)).
  { intros n Hn. apply tkey_nth. rewrite (wf_lt _ W2). now apply alive_lt. }
  split; [apply W2|]. split; [|split].
  - unfold history in H1, H2. rewrite rfold_app, H1 in H2. destruct (history_dec ops2 g1 g2 W1 H2) as [more Hm].
    intros i d Hd. assert (Hd2 : nth_error (gdec g2) i = Some d).
    { rewrite Hm, nth_error_app1; auto. eapply nth_error_lt; eauto. }
    assert (Hin : In d (gnodes g2)) by (apply (wf_di _ W2); eapply nth_error_In; eauto).
    split; auto. split; auto. rewrite Hk by auto. now rewrite (wf_dt _ W2 i d Hd2).
  - intros Hs n Hn Hd. rewrite Hk by auto. now rewrite (wf_u _ W2 Hs n Hn Hd).
  - intros Hs i n Hn. destruct (wf_s _ W2 Hs) as [_ [S2 _]]. rewrite Hk by (eapply nth_error_In; eauto).
    now rewrite (S2 i n Hn).
Qed.
Print Assumptions C14_indices.

Example C14_indices_ex : exists g1 g2,
  history [GDecision; GAdd true [0]; GDecision] = Ok g1 /\
  history ([GDecision; GAdd true [0]; GDecision] ++ [GSort; GReset; GDecision; GAdd true [1; 2]; GRemove true; GSort]) = Ok g2 /\
  gdec g1 = [0; 2] /\ gnodes g2 = [0; 2; 3].
Proof.
  eexists; eexists. split; [vm_compute; reflexivity|]. split; [vm_compute; reflexivity|]. split; reflexivity.
Qed.

(** What the lock does not stop: [add_node] on a sorted graph.  A node can be made its own operand. *)
Theorem C14_locked_add_node_refuted : exists ops g g', history ops = Ok g /\ gsorted g = true /\
  add_node g 4 4 = Ok g' /\ edge g' 4 4 /\ ~ edge g 4 4 /\ gsorted g' = true.
Proof.
  exists (ex_ops ++ [GSort]), ex_gs. eexists. split; [apply ex_gs_ok|]. split; [reflexivity|].
  split; [vm_compute; reflexivity|]. split; [split; vm_compute; tauto|].
  split; [|reflexivity]. intros [_ Hp]. vm_compute in Hp. intuition discriminate.
Qed.
Print Assumptions C14_locked_add_node_refuted.

(** ** C15 *)

(** Exact content of the list of affected nodes: the sources as they were given, plus once every
    node reached from a source by at least one edge; ordered by topological index; all marks cleared. *)
Theorem C15_descendants_exact : forall ops g sources, history ops = Ok g -> gsorted g = true ->
  (forall s, In s sources -> In s (gnodes g)) ->
  exists ns, descendants g (repeat false (length (gnodes g))) sources = Some (repeat false (length (gnodes g)), ns) /\
    StronglySorted (fun a b => (nth a (gtopo g) (-1) <= nth b (gtopo g) (-1))%Z) ns /\
    forall n, ((exists s, In s sources /\ reaches1 g s n) -> occ n ns = occ n sources + 1) /\
              (~ (exists s, In s sources /\ reaches1 g s n) -> occ n ns = occ n sources).
Proof.
  intros ops g sources Hh Hs Hsrc. pose proof (history_WF ops g Hh) as H.
  destruct (descendants_spec g H Hs sources Hsrc) as [ns [A [E [HP [HA [Hre Hso]]]]]].
  exists ns. split; auto. split; auto. intros n.
  assert (Eo : occ n ns = occ n sources + occ n A).
  { unfold occ. rewrite (Permutation_count_occ Nat.eq_dec) in HP. rewrite HP. apply count_occ_app. }
  rewrite Eo. rewrite <- Hre. split; intros Hn.
  - f_equal. unfold occ. apply NoDup_count_occ'; auto.
  - unfold occ at 2. rewrite (proj1 (count_occ_not_In Nat.eq_dec A n) Hn). lia.
Qed.
Print Assumptions C15_descendants_exact.

(** For distinct sources none of which depends on another: every affected node exactly once, in strictly
    increasing topological order. *)
Theorem C15_descendants : forall ops g sources, history ops = Ok g -> gsorted g = true ->
  (forall s, In s sources -> In s (gnodes g)) -> NoDup sources ->
  (forall s t, In s sources -> In t sources -> ~ reaches1 g s t) ->
  exists ns, descendants g (repeat false (length (gnodes g))) sources = Some (repeat false (length (gnodes g)), ns) /\
    (forall n, In n ns <-> exists s, In s sources /\ reaches g s n) /\ NoDup ns /\
    StronglySorted (fun a b => (nth a (gtopo g) (-1) < nth b (gtopo g) (-1))%Z) ns.
Proof.
  intros ops g sources Hh Hs Hsrc Hnd Hind. pose proof (history_WF ops g Hh) as H.
  destruct (descendants_spec g H Hs sources Hsrc) as [ns [A [E [HP [HA [Hre Hso]]]]]].
  exists ns. split; auto.
  assert (Hin : forall n, In n ns <-> exists s, In s sources /\ reaches g s n).
  { intros n. split.
    - intros Hn. apply (Permutation_in n HP), in_app_iff in Hn. destruct Hn as [Hn|Hn].
      + exists n. split; auto. apply rt_refl.
      + apply Hre in Hn. destruct Hn as [s [Hs1 Hr]]. exists s. split; auto. now apply t_rt.
    - intros [s [Hs1 Hr]]. apply (Permutation_in n (Permutation_sym HP)), in_app_iff.
      destruct (reaches_cases g s n Hr) as [-> | [k [Ed Hk]]]; auto. right. apply Hre. exists s. split; auto.
      clear - Ed Hk. apply clos_rt_rtn1 in Hk. induction Hk as [|y z E _ IH]; [now apply t_step|].
      eapply t_trans; [exact IH|now apply t_step]. }
  split; auto.
  assert (Hndn : NoDup ns).
  { eapply Permutation_NoDup; [symmetry; exact HP|]. apply NoDup_app_intro; auto.
    intros x Hx Hx'. apply Hre in Hx'. destruct Hx' as [s [Hs1 Hr]]. now apply (Hind s x). }
  split; auto.
  assert (Hlive : forall n, In n ns -> In n (gnodes g)).
  { intros n Hn. apply (Permutation_in n HP), in_app_iff in Hn. destruct Hn as [Hn|Hn]; auto.
    apply Hre in Hn. destruct Hn as [s [_ Hr]]. now apply (reaches1_in g s n). }
  destruct (wf_s _ H Hs) as [_ [S2 _]]. clear - Hso Hndn Hlive S2.
  induction Hso as [|a l Hso IH Hf]; [constructor|]. inversion Hndn as [|? ? Ha Hnd]; subst.
  constructor; [apply IH; auto; intros; apply Hlive; right; auto|].
  rewrite Forall_forall in *. intros b Hb. specialize (Hf b Hb).
  assert (Ha' : In a (gnodes g)) by (apply Hlive; left; auto).
  assert (Hb' : In b (gnodes g)) by (apply Hlive; right; auto).
  destruct (In_nth_error _ _ Ha') as [i Hi]. destruct (In_nth_error _ _ Hb') as [j Hj].
  pose proof (S2 i a Hi) as Ki. pose proof (S2 j b Hj) as Kj. unfold tkey in *.
  assert (i <> j) by (intros ->; assert (a = b) by congruence; subst; tauto). lia.
Qed.
Print Assumptions C15_descendants.

Lemma ex_gs_preds s n : reaches1 ex_gs s n -> s < n.
Proof.
  intros Hr. pose proof (history_Inc _ _ ex_gs_ok eq_refl) as Hi.
  induction Hr as [a b E|a b c H1 IH1 H2 IH2]; [|lia]. now apply (inc_edge _ Hi).
Qed.

Example C15_descendants_ex : history (ex_ops ++ [GSort]) = Ok ex_gs /\ gsorted ex_gs = true /\
  (forall s, In s [2; 5] -> In s (gnodes ex_gs)) /\ NoDup [2; 5] /\
  (forall s t, In s [2; 5] -> In t [2; 5] -> ~ reaches1 ex_gs s t) /\
  descendants ex_gs (repeat false 7) [5; 2] = Some (repeat false 7, [2; 3; 4; 5; 6]).
Proof.
  split; [apply ex_gs_ok|]. split; [reflexivity|]. split; [|split; [|split]].
  - intros s Hs. vm_compute in Hs. vm_compute. intuition.
  - repeat constructor; cbn; intuition discriminate.
  - intros s t Hs Ht Hr. pose proof (ex_gs_preds s t Hr) as Hlt.
    assert (E : s = 2 /\ t = 5) by (cbn in Hs, Ht; lia). destruct E as [-> ->].
    apply clos_trans_tn1 in Hr. assert (Hpre : In 5 (gnodes ex_gs) /\ exists k, In k (oget (gpred ex_gs) 5) /\ (k = 2 \/ reaches1 ex_gs 2 k)).
    { inversion Hr as [y0 E E0|y z Ey Hy E0]; subst.
      - destruct E as [E1 E2]. split; auto. exists 2. auto.
      - destruct Ey as [E1 E2]. split; auto. exists y. split; auto. right. now apply clos_tn1_trans. }
    destruct Hpre as [_ [k [Hk [-> | Hr2]]]]; vm_compute in Hk.
    + intuition discriminate.
    + destruct Hk as [<- | []]. apply ex_gs_preds in Hr2. lia.
  - vm_compute; reflexivity.
Qed.

(** Without that condition a node is scheduled (propagated, committed, reverted) twice: here node 3
    is a source and depends on the source 2. *)
Theorem C15_descendants_duplicate_refuted : exists ops g sources ns,
  history ops = Ok g /\ gsorted g = true /\ NoDup sources /\ (forall s, In s sources -> In s (gnodes g)) /\
  descendants g (repeat false (length (gnodes g))) sources = Some (repeat false (length (gnodes g)), ns) /\ ~ NoDup ns.
Proof.
  exists (ex_ops ++ [GSort]), ex_gs, [2; 3], [2; 3; 3; 4; 6].
  split; [apply ex_gs_ok|]. split; [reflexivity|]. split; [repeat constructor; cbn; intuition discriminate|].
  split; [intros s Hs; vm_compute in Hs; vm_compute; intuition|]. split; [vm_compute; reflexivity|].
  intros Hn. inversion Hn as [|? ? _ Hn1]; subst. inversion Hn1 as [|? ? Hx _]; subst. apply Hx. left; auto.
Qed.
Print Assumptions C15_descendants_duplicate_refuted.

(** ** C16 *)

(** Exactly the unused nodes go; the others keep their order, predecessors and (live) successors, and
    objective, constraints and decisions stay. *)
Theorem C16_remove_unused_exact : forall ops g il, history ops = Ok g -> acyclic g ->
  exists gs g', topological_sort g = Ok gs /\
    remove_unused_nodes g il = Ok (g', length (gnodes g) - length (gnodes g')) /\
    (forall n, In n (gnodes g') <-> In n (gnodes g) /\ used g il n) /\
    (exists keep, gnodes g' = filter keep (gnodes gs)) /\
    gdec g' = gdec g /\ gobj g' = gobj g /\ gcons g' = gcons g /\ gpred g' = gpred g /\
    (forall n m, In n (gnodes g') -> occ m (oget (gsucc g') n) =
                 if existsb (Nat.eqb m) (gnodes g') then occ m (oget (gsucc g) n) else 0) /\
    linked g' /\ gsorted g' = false.
Proof.
  intros ops g il Hh Ha. pose proof (history_WF ops g Hh) as H.
  pose proof (remove_cases g il H) as Hc.
  assert (Hgs : exists gs, topological_sort g = Ok gs /\ Permutation (gnodes gs) (gnodes g) /\ gpred gs = gpred g /\
                gsucc gs = gsucc g /\ gdec gs = gdec g /\ gobj gs = gobj g /\ gcons gs = gcons g /\
                glisten gs = glisten g /\ gremov gs = gremov g).
  { destruct (gsorted g) eqn:Es.
    - exists g. unfold topological_sort. rewrite Es. repeat split; auto.
    - pose proof (sort_cases g H Es) as Hs. destruct (topological_sort g) as [gs| |]; [|tauto|tauto].
      destruct Hs as [bl [tp [-> [HP _]]]]. eexists. split; [reflexivity|]. cbn. repeat split; auto. }
  destruct Hgs as [gs [Es [HP [F1 [F2 [F3 [F4 [F5 [F6 F7]]]]]]]]]. rewrite Es in Hc.
  destruct Hc as [g' [R [E HR]]]. exists gs, g'. split; auto. split; auto.
  assert (Hin : forall n, In n (gnodes gs) <-> In n (gnodes g)).
  { intros n; split; apply Permutation_in; auto. now symmetry. }
  assert (Hedge : forall a b, edge gs a b <-> edge g a b) by (intros a b; unfold edge; now rewrite Hin, F1).
  assert (Hreach : forall a b, reaches gs a b <-> reaches g a b).
  { intros a b. split; intros Hr; (induction Hr as [x y Ed|x|x y z R1 IH1 R2 IH2];
      [apply rt_step; now apply Hedge|apply rt_refl|eapply rt_trans; eauto]). }
  assert (Hused : forall n, used gs il n <-> used g il n).
  { intros n. unfold used, root. split; intros [r [H1 [H2 H3]]]; exists r.
    - rewrite <- Hin, <- Hreach, <- F3, <- F4, <- F5, <- F6, <- F7. auto.
    - rewrite Hin, Hreach, F3, F4, F5, F6, F7. auto. }
  assert (Has : acyclic gs).
  { intros n Hn. apply (Ha n). clear - Hn Hedge. revert Hn.
    assert (Hg : forall a b, reaches1 gs a b -> reaches1 g a b); [|apply Hg].
    induction 1 as [x y Ed|x y z R1 IH1 R2 IH2]; [apply t_step; now apply Hedge|eapply t_trans; eauto]. }
  assert (Hn' : forall n, In n (gnodes g') <-> In n (gnodes gs) /\ ~ In n R).
  { intros n. rewrite (rm_nodes _ _ _ _ HR), filter_In, negb_true_iff, <- not_true_iff_false, existsb_In. tauto. }
  split; [|split; [|split; [|split; [|split; [|split; [|split; [|split]]]]]]].
  - intros n. rewrite Hn', Hin, <- Hused. split.
    + intros [H1 H2]. split; auto. apply (rm_ex _ _ _ _ HR); auto. now apply Hin.
    + intros [H1 H2]. split; auto. intros HnR. now apply (rm_in _ _ _ _ HR n HnR).
  - eexists. apply HR.
  - rewrite (rm_dec _ _ _ _ HR). auto.
  - rewrite (rm_obj _ _ _ _ HR). auto.
  - rewrite (rm_cons _ _ _ _ HR). auto.
  - rewrite (rm_pred _ _ _ _ HR). auto.
  - intros n m Hn. rewrite (rm_succ _ _ _ _ HR n Hn). rewrite F2.
    destruct (existsb (Nat.eqb m) (gnodes g')) eqn:Em.
    + apply existsb_In, Hn' in Em. induction (oget (gsucc g) n) as [|x l IH]; cbn [filter]; auto.
      destruct (existsb (Nat.eqb x) R) eqn:Ex; cbn [negb].
      * rewrite occ_cons, IH. destruct (Nat.eq_dec x m) as [-> | _]; auto. apply existsb_In in Ex. tauto.
      * rewrite !occ_cons, IH. auto.
    + destruct (occ m (filter (fun m => negb (existsb (Nat.eqb m) R)) (oget (gsucc g) n))) as [|k] eqn:Ek; auto.
      exfalso. assert (Hm : In m (filter (fun m => negb (existsb (Nat.eqb m) R)) (oget (gsucc g) n))) by (apply occ_in; lia).
      apply filter_In in Hm. destruct Hm as [Hm1 Hm2]. apply not_true_iff_false in Em. apply Em.
      apply existsb_In, Hn'. split.
      * apply Hin. destruct (wf_link _ H) as [_ [L2 _]]. apply (L2 n m); auto. apply Hin. now apply Hn' in Hn.
      * rewrite <- existsb_In. apply negb_true_iff in Hm2. congruence.
  - apply (rm_wf _ _ _ _ HR).
  - apply HR.
Qed.
Print Assumptions C16_remove_unused_exact.

(** Here 6 is unused; with a node 7 on top of it that someone listens to, it is kept unless listeners
    are ignored. *)
Definition ex_listen : graph := Eval vm_compute in
  match history (ex_ops ++ [GAdd true [6; 2]; GListen 7 true]) with Ok g => g | _ => g_empty end.
Example C16_remove_unused_exact_ex :
  history (ex_ops ++ [GAdd true [6; 2]; GListen 7 true]) = Ok ex_listen /\ acyclic ex_listen /\
  (exists g', remove_unused_nodes ex_listen false = Ok (g', 0)) /\
  (exists g', remove_unused_nodes ex_listen true = Ok (g', 2) /\ gnodes g' = [0; 2; 1; 3; 4; 5]).
Proof.
  assert (E : history (ex_ops ++ [GAdd true [6; 2]; GListen 7 true]) = Ok ex_listen) by (vm_compute; reflexivity).
  split; auto. split.
  - intros n Hn. pose proof (history_Inc _ _ E eq_refl) as Hi.
    assert (Hlt : forall a b, reaches1 ex_listen a b -> a < b).
    { induction 1 as [a b Ed|a b c H1 IH1 H2 IH2]; [now apply (inc_edge _ Hi)|lia]. }
    specialize (Hlt n n Hn). lia.
  - split; [eexists; vm_compute; reflexivity|]. eexists. split; [vm_compute; reflexivity|reflexivity].
Qed.

(** ** C18 *)

(** Initialising one node: its state and that of every node it needs are created, each from the
    states of its predecessors; nothing present changes, nothing else is created; and full
    initialisation of the same state would have given the same. *)
Theorem C18_lazy_init : forall ops g T (ninit : nat -> list T -> T) st n,
  history ops = Ok g -> gsorted g = true -> acyclic g -> In n (gnodes g) -> length st <= length (gnodes g) ->
  exists st' full, recursive_initialize ninit g (length (gnodes g)) st n = Ok st' /\
    initialize_state ninit g (grow_state (length (gnodes g)) st) = Ok full /\
    state_of g st' n <> None /\
    (forall m, In m (gnodes g) ->
       (forall x, state_of g st m = Some x -> state_of g st' m = Some x /\ state_of g full m = Some x) /\
       state_of g full m <> None /\
       (needed g st [n] m -> state_of g st' m = state_of g full m /\
          exists ss, map (state_of g st') (oget (gpred g) m) = map Some ss /\ state_of g st' m = Some (ninit m ss)) /\
       (state_of g st m = None -> ~ needed g st [n] m -> state_of g st' m = None)).
Proof.
  intros ops g T ninit st n Hh Hs Ha Hn Hlen. pose proof (history_WF ops g Hh) as H.
  destruct (tidx_live g H Hs n Hn) as [i [Ei [_ Li]]].
  destruct (rec_init_spec g H Hs ninit Ha (length (gnodes g)) st n i Hn Ei Li) as [st' [E1 [P1 _]]].
  destruct (init_state_spec g H Hs ninit Ha (grow_state (length (gnodes g)) st)) as [full [E2 [L2 P2]]].
  { unfold grow_state. rewrite app_length, repeat_length. lia. }
  assert (P2' : IP g ninit st (gnodes g) full).
  { apply (IP_ext g Hs ninit st (grow_state (length (gnodes g)) st)); auto.
    - intros m. apply get_grow.
    - unfold grow_state. rewrite app_length. lia. }
  exists st', full. split; auto. split; auto. split.
  { destruct (state_of g st n) as [x|] eqn:Ex.
    - rewrite (ip_old _ _ _ _ _ P1 n x Hn Ex). discriminate.
    - destruct (ip_new _ _ _ _ _ P1 n) as [ss [_ E]]; [apply nd_self; [left; auto|auto]|]. congruence. }
  intros m Hm. split; [|split; [|split]].
  - intros x Ex. split; [now apply (ip_old _ _ _ _ _ P1)|now apply (ip_old _ _ _ _ _ P2')].
  - destruct (state_of g st m) as [x|] eqn:Ex.
    + rewrite (ip_old _ _ _ _ _ P2' m x Hm Ex). discriminate.
    + destruct (ip_new _ _ _ _ _ P2' m) as [ss [_ E]]; [apply nd_self; auto|]. congruence.
  - intros Hnd. split; [|now apply (ip_new _ _ _ _ _ P1)].
    apply (IP_agree g ninit st [n] st' full H Hs Ha); auto. intros t [<- | []]; auto.
  - intros Ex Hnn. destruct (state_of g st' m) as [x|] eqn:Ex'; auto. exfalso.
    destruct (ip_set _ _ _ _ _ P1 m Hm) as [Hc|Hc]; [congruence|congruence|auto].
Qed.
Print Assumptions C18_lazy_init.

(** States are numbers here: own number plus ten times the sum of the predecessors' states.  Node 1
    already has a state (5), so neither it nor its predecessor 0 is created for node 3. *)
Example C18_lazy_init_ex :
  history (ex_ops ++ [GSort]) = Ok ex_gs /\ gsorted ex_gs = true /\ acyclic ex_gs /\ In 3 (gnodes ex_gs) /\
  recursive_initialize (fun n ss => n + 10 * list_sum ss) ex_gs 7 [None; None; Some 5] 3 =
    Ok [None; Some 2; Some 5; Some 73] /\
  needed ex_gs [None; None; Some 5] [3] 2 /\ state_of ex_gs [None; None; Some 5] 1 = Some 5.
Proof.
  split; [apply ex_gs_ok|]. split; [reflexivity|]. split; [intros n Hn; apply ex_gs_preds in Hn; lia|].
  split; [vm_compute; tauto|]. split; [vm_compute; reflexivity|]. split; [|reflexivity].
  apply nd_pred with 3; [apply nd_self; [left; auto|reflexivity]|split; vm_compute; tauto|reflexivity].
Qed.

(** ** C19 *)

(** Resetting a node clears exactly the states of the nodes that can be reached from it. *)
Theorem C19_reset_exact : forall ops g T (st : list (option T)) n,
  history ops = Ok g -> gsorted g = true -> acyclic g -> In n (gnodes g) ->
  exists st', recursive_reset g (length (gnodes g) + 1) st n = Ok st' /\ length st' = length st /\
    forall m, In m (gnodes g) ->
      (reaches g n m -> state_of g st' m = None) /\ (~ reaches g n m -> state_of g st' m = state_of g st m).
Proof.
  intros ops g T st n Hh Hs Ha Hn. pose proof (history_WF ops g Hh) as H.
  destruct (tidx_live g H Hs n Hn) as [i [Ei [_ Li]]].
  destruct (rec_reset_spec g H Hs Ha (length (gnodes g) + 1) st n i Hn Ei) as [st' [E P]]; [lia|].
  exists st'. split; auto. split; [apply (rp_len _ _ _ _ P)|]. intros m Hm. split.
  - intros Hr. apply (rp_clear _ _ _ _ P n m); auto. left; auto.
  - intros Hr. apply (rp_keep _ _ _ _ P); auto. intros t [<- | []]; auto.
Qed.
Print Assumptions C19_reset_exact.

Example C19_reset_exact_ex : history (ex_ops ++ [GSort]) = Ok ex_gs /\ gsorted ex_gs = true /\
  acyclic ex_gs /\ In 1 (gnodes ex_gs) /\
  recursive_reset ex_gs 8 [Some 0; Some 2; Some 1; Some 3; None; Some 5] 1 = Ok [Some 0; Some 2; None; None; None; None].
Proof.
  split; [apply ex_gs_ok|]. split; [reflexivity|]. split; [intros n Hn; apply ex_gs_preds in Hn; lia|].
  split; [vm_compute; tauto|]. vm_compute; reflexivity.
Qed.

(** ** C49 *)

(** In every history the two ends of every edge agree, with multiplicity, and no successor or
    predecessor pointer leads to a deleted node; objective and constraints are live nodes. *)
Theorem C49_links_consistent : forall ops g, history ops = Ok g ->
  linked g /\ (forall n, gobj g = Some n -> In n (gnodes g)) /\ incl (gcons g) (gnodes g).
Proof.
  intros ops g Hh. pose proof (history_WF ops g Hh) as H. split; [apply H|]. split; apply H.
Qed.
Print Assumptions C49_links_consistent.

Example C49_links_consistent_ex : exists g, history (ex_ops ++ [GSort; GRemove true; GAddEdge 3 2]) = Ok g /\
  oget (gsucc g) 2 = [3; 3] /\ oget (gpred g) 3 = [1; 2; 2].
Proof. eexists. split; [vm_compute; reflexivity|]. split; reflexivity. Qed.

(** Not so for nodes that register with their operands one at a time: when a later operand is
    refused, the earlier ones keep a pointer to the node that was never built, and locking the model
    follows it. *)
Theorem C49_refused_node_refuted : exists ops g ok preds g', history ops = Ok g /\
  emplace_incremental g ok preds = Ok (g', false) /\ gnodes g' = gnodes g /\ ~ linked g' /\
  topological_sort g' = UB.
Proof.
  exists [GDecision; GAdd true [0]], (match history [GDecision; GAdd true [0]] with Ok g => g | _ => g_empty end),
    (fun p => negb (p =? 0)), [1; 0].
  eexists. split; [vm_compute; reflexivity|]. split; [vm_compute; reflexivity|]. split; [reflexivity|].
  split; [|vm_compute; reflexivity].
  intros [_ [L2 _]]. specialize (L2 1 2). vm_compute in L2. intuition discriminate.
Qed.
Print Assumptions C49_refused_node_refuted.
