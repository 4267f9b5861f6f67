(** Proofs about the graph model: descendants, lazy initialisation, resetting. *)
From Verif Require Import Base GraphModel GraphSpec GraphProofs GraphProofs2.
From Coq Require Import Relations Sorting.Sorted.

Lemma t_rt (R : nat -> nat -> Prop) a b : clos_trans nat R a b -> clos_refl_trans nat R a b.
Proof. induction 1; [now apply rt_step|eapply rt_trans; eauto]. Qed.

Section Sorted.
Variable g : graph.
Hypothesis Hwf : WF g.
Hypothesis Hs : gsorted g = true.

Lemma tidx_nth i n : nth_error (gnodes g) i = Some n -> tidx g n = Some i.
Proof.
  intros Hi. destruct (wf_s _ Hwf Hs) as [_ [S2 _]]. unfold tidx.
  rewrite tkey_nth; [|rewrite (wf_lt _ Hwf); apply alive_lt; auto; eapply nth_error_In; eauto].
  rewrite (S2 i n Hi). destruct (Z.ltb_spec (Z.of_nat i) 0); [lia|]. f_equal. lia.
Qed.

Lemma tidx_live n : In n (gnodes g) -> exists i, tidx g n = Some i /\ nth_error (gnodes g) i = Some n /\ i < length (gnodes g).
Proof.
  intros Hn. destruct (In_nth_error _ _ Hn) as [i Hi]. exists i. split; [now apply tidx_nth|]. split; auto.
  eapply nth_error_lt; eauto.
Qed.

Lemma tidx_inj n m i : In n (gnodes g) -> In m (gnodes g) -> tidx g n = Some i -> tidx g m = Some i -> n = m.
Proof.
  intros Hn Hm H1 H2. destruct (tidx_live n Hn) as [j [E1 [N1 _]]]. destruct (tidx_live m Hm) as [k [E2 [N2 _]]]. congruence.
Qed.

Lemma tkey_tidx n i : In n (gnodes g) -> tidx g n = Some i -> tkey (gtopo g) n = Z.of_nat i.
Proof.
  intros Hn E. destruct (tidx_live n Hn) as [j [E1 [N1 _]]]. assert (i = j) by congruence. subst j.
  destruct (wf_s _ Hwf Hs) as [_ [S2 _]]. auto.
Qed.

Lemma edge_lt p n i j : acyclic g -> edge g p n -> tidx g p = Some i -> tidx g n = Some j -> i < j.
Proof.
  intros Ha E Hi Hj. destruct (edge_in g p n Hwf E) as [Hp Hn].
  destruct (wf_s _ Hwf Hs) as [_ [_ S3]]. pose proof (S3 p n E) as Hle.
  rewrite (tkey_tidx p i Hp Hi), (tkey_tidx n j Hn Hj) in Hle.
  destruct (Nat.eq_dec i j) as [-> | Hne]; [|lia]. exfalso.
  assert (p = n) by (eapply tidx_inj; eauto). subst n. apply (Ha p). now apply t_step.
Qed.

(** ** Descendants *)
Definition mk (marks : list bool) (n : nat) : Prop := exists i, tidx g n = Some i /\ nth_error marks i = Some true.

Lemma mk_lset marks n i m : In n (gnodes g) -> In m (gnodes g) -> tidx g n = Some i -> i < length marks ->
  (mk (lset i true marks) m <-> mk marks m \/ m = n).
Proof.
  intros Hn Hm Hi Hl. unfold mk. split.
  - intros [j [Hj E]]. rewrite nth_error_lset in E. destruct (Nat.eqb_spec i j) as [<- | Hne].
    + right. eapply tidx_inj; eauto. + left. eauto.
  - intros [[j [Hj E]] | ->].
    + exists j. split; auto. rewrite nth_error_lset. now destruct (_ && _).
    + exists i. split; auto. now rewrite nth_error_lset_eq.
Qed.

Lemma bfs_succ_spec ms : forall marks added, length marks = length (gnodes g) ->
  (forall m, In m ms -> In m (gnodes g)) ->
  exists marks' new, bfs_succ g ms marks added = Some (marks', added ++ new) /\
    length marks' = length marks /\ NoDup new /\ incl new ms /\
    (forall m, In m new -> ~ mk marks m) /\
    (forall m, In m (gnodes g) -> (mk marks' m <-> mk marks m \/ In m new)) /\
    (forall m, In m ms -> mk marks' m).
Proof.
  induction ms as [|m ms IH]; intros marks added Hl Hms; cbn [bfs_succ].
  - exists marks, []. rewrite app_nil_r. repeat split; auto; try constructor; try (intros; cbn in *; tauto).
    intros x [].
  - assert (Hm : In m (gnodes g)) by (apply Hms; left; auto).
    destruct (tidx_live m Hm) as [i [Ei [Ni Li]]]. rewrite Ei.
    rewrite <- Hl in Li. destruct (nth_error_get _ Li) as [b Eb]. rewrite Eb. destruct b.
    + destruct (IH marks added Hl (fun x Hx => Hms x (or_intror Hx))) as [mk' [new [E [H1 [H2 [H3 [H4 [H5 H6]]]]]]]].
      exists mk', new. repeat split; auto.
      * intros x Hx; right; auto.
      * apply H5; auto.
      * apply H5; auto.
      * intros x [<- | Hx]; auto. apply H5; auto. left. exists i; auto.
    + destruct (IH (lset i true marks) (added ++ [m])) as [mk' [new [E [H1 [H2 [H3 [H4 [H5 H6]]]]]]]].
      { now rewrite lset_length. } { intros x Hx; apply Hms; right; auto. }
      rewrite lset_length in H1.
      assert (Hself : mk (lset i true marks) m) by (apply (mk_lset marks m i m); auto).
      exists mk', (m :: new). rewrite E, <- app_assoc. repeat split; auto.
      * constructor; auto. intros Hx. now apply (H4 m).
      * intros x [<- | Hx]; [left; auto|right; auto].
      * intros x [<- | Hx].
        -- intros [j [Hj Ej]]. congruence.
        -- intros Hmk. apply (H4 x Hx). apply (mk_lset marks m i x); auto. apply Hms; right; auto.
      * rewrite H5 by auto. rewrite (mk_lset marks m i) by auto. cbn. intuition.
      * rewrite H5 by auto. rewrite (mk_lset marks m i) by auto. cbn. intuition.
      * intros x [<- | Hx]; auto. apply H5; auto.
Qed.

Lemma reaches1_in a b : reaches1 g a b -> In b (gnodes g).
Proof. induction 1 as [a b E|a b c H1 IH1 H2 IH2]; auto. apply E. Qed.

Lemma bfs_spec sources : (forall s, In s sources -> In s (gnodes g)) -> forall fuel marks ex todo A,
  length marks = length (gnodes g) ->
  ex ++ todo = sources ++ A -> NoDup A -> (forall a, In a A -> exists s, In s sources /\ reaches1 g s a) ->
  (forall m, In m (gnodes g) -> (mk marks m <-> In m A)) ->
  (forall e m, In e ex -> edge g e m -> In m A) ->
  fuel + length ex = length sources + length (gnodes g) ->
  exists marks' A', bfs g fuel marks ex todo = Some (marks', sources ++ A') /\
    length marks' = length marks /\ NoDup A' /\ (forall a, In a A' -> exists s, In s sources /\ reaches1 g s a) /\
    (forall m, In m (gnodes g) -> (mk marks' m <-> In m A')) /\
    (forall e m, In e (sources ++ A') -> edge g e m -> In m A').
Proof.
  intros Hsrc. induction fuel as [|fuel IH]; intros marks ex todo A Hl Eq HA Hre Hmk Hcl Hf.
  - assert (HAl : length A <= length (gnodes g)).
    { apply NoDup_incl_length; auto. intros a Ha. destruct (Hre a Ha) as [s [_ Hr]]. now apply reaches1_in in Hr. }
    assert (El : length ex + length todo = length sources + length A) by (rewrite <- !app_length; congruence).
    destruct todo as [|n r]; [|cbn in El, Hf; lia]. cbn. rewrite app_nil_r in Eq. subst ex.
    exists marks, A. repeat split; auto; now apply Hmk.
  - destruct todo as [|n r]; cbn [bfs].
    { rewrite app_nil_r in Eq. subst ex. exists marks, A. repeat split; auto; now apply Hmk. }
    assert (Hn : In n (gnodes g)).
    { assert (Hx : In n (sources ++ A)) by (rewrite <- Eq; apply in_app_iff; right; left; auto).
      apply in_app_iff in Hx. destruct Hx as [Hx|Hx]; auto.
      destruct (Hre n Hx) as [s [_ Hr]]. now apply reaches1_in in Hr. }
    assert (Hnr : exists s, In s sources /\ reaches g s n).
    { assert (Hx : In n (sources ++ A)) by (rewrite <- Eq; apply in_app_iff; right; left; auto).
      apply in_app_iff in Hx. destruct Hx as [Hx|Hx].
      - exists n. split; auto. apply rt_refl.
      - destruct (Hre n Hx) as [s [Hs1 Hr]]. exists s. split; auto. now apply t_rt. }
    assert (Hsl : forall m, In m (oget (gsucc g) n) -> edge g n m) by (intros m Hm; apply edge_succ; auto).
    destruct (bfs_succ_spec (oget (gsucc g) n) marks [] Hl) as [marks' [new [E [H1 [H2 [H3 [H4 [H5 H6]]]]]]]].
    { intros m Hm. apply (Hsl m Hm). }
    rewrite E. cbn [app].
    destruct (IH marks' (ex ++ [n]) (r ++ new) (A ++ new)) as [mf [Af Hres]].
    + congruence.
    + rewrite <- app_assoc. cbn. change (n :: r ++ new) with ((n :: r) ++ new). rewrite app_assoc, Eq. now rewrite app_assoc.
    + apply NoDup_app_intro; auto. intros x Hx Hx'. apply (H4 x Hx'). apply Hmk; auto.
      destruct (Hre x Hx) as [s [_ Hr]]. now apply reaches1_in in Hr.
    + intros a Ha. apply in_app_iff in Ha. destruct Ha as [Ha|Ha]; auto.
      destruct Hnr as [s [Hs1 Hr]]. exists s. split; auto. eapply rt_t; eauto.
    + intros m Hm. rewrite H5 by auto. rewrite Hmk by auto. rewrite in_app_iff. tauto.
    + intros e m He Ed. rewrite in_app_iff in *. destruct He as [He | [<- | []]]; [left; eauto|].
      assert (Hx : mk marks' m) by (apply H6; now apply (edge_succ g n m Hwf)).
      apply H5 in Hx; [|apply Ed]. rewrite Hmk in Hx by apply Ed. tauto.
    + rewrite app_length. cbn. lia.
    + exists mf, Af. rewrite H1 in Hres. exact Hres.
Qed.

Lemma clear_marks_spec ns : forall marks, length marks = length (gnodes g) ->
  (forall n, In n ns -> In n (gnodes g)) ->
  exists marks', clear_marks g ns marks = Some marks' /\ length marks' = length marks /\
    forall i n, nth_error (gnodes g) i = Some n -> (nth_error marks' i = Some true <-> nth_error marks i = Some true /\ ~ In n ns).
Proof.
  unfold clear_marks. induction ns as [|n ns IH]; intros marks Hl Hns; cbn [ofold].
  - exists marks. repeat split; auto; tauto.
  - assert (Hn : In n (gnodes g)) by (apply Hns; left; auto).
    destruct (tidx_live n Hn) as [i [Ei [Ni Li]]]. rewrite Ei. rewrite <- Hl in Li.
    destruct (Nat.ltb_spec i (length marks)) as [_|]; [|lia].
    destruct (IH (lset i false marks)) as [marks' [E [H1 H2]]].
    { now rewrite lset_length. } { intros x Hx; apply Hns; right; auto. }
    exists marks'. rewrite lset_length in H1. split; auto. split; auto.
    intros j m Hj. rewrite (H2 j m Hj). rewrite nth_error_lset.
    destruct (Nat.eqb_spec i j) as [<- | Hne]; cbn [andb].
    + destruct (Nat.ltb_spec i (length marks)); [|lia]. assert (m = n) by congruence. subst m.
      cbn. intuition congruence.
    + cbn. split; intros [Ha Hb]; split; auto. intros [-> | Hx]; auto.
      assert (j = i) by (pose proof (tidx_nth j m Hj); congruence). congruence.
Qed.

Lemma descendants_spec sources : (forall s, In s sources -> In s (gnodes g)) ->
  exists ns A, descendants g (repeat false (length (gnodes g))) sources = Some (repeat false (length (gnodes g)), ns) /\
    Permutation ns (sources ++ A) /\ NoDup A /\
    (forall n, In n A <-> exists s, In s sources /\ reaches1 g s n) /\
    StronglySorted (fun a b => (nth a (gtopo g) (-1) <= nth b (gtopo g) (-1))%Z) ns.
Proof.
  intros Hsrc. unfold descendants.
  destruct (bfs_spec sources Hsrc (length sources + length (gnodes g)) (repeat false (length (gnodes g))) [] sources [])
    as [marks' [A [E [H1 [H2 [H3 [H4 H5]]]]]]].
  - apply repeat_length.
  - now rewrite app_nil_r.
  - constructor.
  - intros a [].
  - intros m Hm. split; [|intros []]. intros [i [Ei Em]]. rewrite nth_error_repeat in Em.
    destruct (i <? _); discriminate.
  - intros e m [].
  - cbn. lia.
  - rewrite E. rewrite repeat_length in H1.
    pose proof (tsort_perm (gtopo g) (sources ++ A)) as HP.
    assert (HAl : forall n, In n A -> In n (gnodes g)).
    { intros n Hn. destruct (H3 n Hn) as [s [_ Hr]]. now apply reaches1_in in Hr. }
    destruct (clear_marks_spec (tsort (gtopo g) (sources ++ A)) marks' H1) as [m2 [E2 [L2 C2]]].
    { intros n Hn. apply (Permutation_in n (Permutation_sym HP)), in_app_iff in Hn. destruct Hn; auto. }
    rewrite E2. exists (tsort (gtopo g) (sources ++ A)), A.
    split; [|split; [|split; [|split]]]; auto.
    + f_equal. f_equal. apply nth_error_ext. intros i. rewrite nth_error_repeat.
      destruct (Nat.ltb_spec i (length (gnodes g))) as [Hi|Hi].
      * destruct (nth_error_get _ Hi) as [n Hn]. assert (Hi2 : i < length m2) by congruence.
        destruct (nth_error_get _ Hi2) as [b Hb]. rewrite Hb. destruct b; auto.
        apply (C2 i n Hn) in Hb. destruct Hb as [Hb1 Hb2]. exfalso. apply Hb2.
        apply (Permutation_in n HP), in_app_iff. right. apply H4; [eapply nth_error_In; eauto|].
        exists i. split; auto. now apply tidx_nth.
      * apply nth_error_None. lia.
    + now symmetry.
    + intros n. split; auto. intros [s [Hs1 Hr]].
      assert (Hgen : forall a b, reaches1 g a b -> In a (sources ++ A) -> In b A).
      { clear - H5. intros a b Hr. induction Hr as [a b Ed|a b c R1 IH1 R2 IH2]; intros Ha; [eauto|].
        apply IH2. apply in_app_iff. right. auto. }
      apply (Hgen s n Hr). apply in_app_iff; auto.
    + exact (tsort_sorted (gtopo g) (sources ++ A)).
Qed.

(** ** Lazy initialisation *)
Section Init.
Context {T : Type}.
Variable ninit : nat -> list T -> T.
Hypothesis Hac : acyclic g.
Notation get := (@state_of T g).

Record IP (st : list (option T)) (Ts : list nat) (st' : list (option T)) : Prop := {
  ip_old : forall m x, In m (gnodes g) -> get st m = Some x -> get st' m = Some x;
  ip_set : forall m, In m (gnodes g) -> get st' m <> None -> get st m <> None \/ needed g st Ts m;
  ip_new : forall m, needed g st Ts m -> exists ss, map (get st') (oget (gpred g) m) = map Some ss /\
                                                    get st' m = Some (ninit m ss);
  ip_len : length st <= length st' }.

Lemma needed_in (st : list (option T)) Ts m : (forall t, In t Ts -> In t (gnodes g)) -> needed g st Ts m -> In m (gnodes g).
Proof. intros H. induction 1 as [t Ht _|p m _ _ E _]; auto. now apply (edge_in g p m). Qed.

Lemma needed_none (st : list (option T)) Ts m : needed g st Ts m -> get st m = None.
Proof. induction 1; auto. Qed.

Lemma needed_incl (st : list (option T)) Ts Ts' m : incl Ts Ts' -> needed g st Ts m -> needed g st Ts' m.
Proof. intros Hi. induction 1; [apply nd_self; auto|eapply nd_pred; eauto]. Qed.

Lemma ip_refl st Ts : (forall t, In t Ts -> get st t <> None) -> IP st Ts st.
Proof.
  intros H. assert (Hn : forall m, needed g st Ts m -> False).
  { induction 1 as [t Ht E|]; auto. now apply (H t Ht). }
  constructor; auto. intros m Hm. exfalso; eauto.
Qed.

Lemma IP_trans st T1 st1 T2 st2 : (forall t, In t (T1 ++ T2) -> In t (gnodes g)) ->
  IP st T1 st1 -> IP st1 T2 st2 -> IP st (T1 ++ T2) st2.
Proof.
  intros HT H1 H2.
  assert (Hback : forall m, needed g st1 T2 m -> needed g st T2 m).
  { assert (Hn : forall m, In m (gnodes g) -> get st1 m = None -> get st m = None).
    { intros m Hm E. destruct (get st m) as [x|] eqn:Ex; auto. rewrite (ip_old _ _ _ H1 m x Hm Ex) in E. discriminate. }
    induction 1 as [t Ht E|p m Hm IH Ed E].
    - apply nd_self; auto. apply Hn; auto. apply HT, in_app_iff; auto.
    - eapply nd_pred; eauto. apply Hn; auto. now apply (edge_in g p m). }
  assert (Hsplit : forall m, needed g st (T1 ++ T2) m -> needed g st T1 m \/ needed g st1 T2 m).
  { induction 1 as [t Ht E|p m Hm IH Ed E].
    - apply in_app_iff in Ht. destruct Ht as [Ht|Ht]; [left; apply nd_self; auto|].
      destruct (get st1 t) as [x|] eqn:Ex.
      + left. destruct (ip_set _ _ _ H1 t) as [Hc|Hc]; [apply HT, in_app_iff; auto|congruence|congruence|auto].
      + right. apply nd_self; auto.
    - destruct IH as [IH|IH]; [left; eapply nd_pred; eauto|].
      destruct (get st1 p) as [x|] eqn:Ex.
      + left. destruct (ip_set _ _ _ H1 p) as [Hc|Hc]; [now apply (edge_in g p m)|congruence|congruence|auto].
      + right. eapply nd_pred; eauto. }
  constructor.
  - intros m x Hm E. apply (ip_old _ _ _ H2); auto. apply (ip_old _ _ _ H1); auto.
  - intros m Hm E. destruct (ip_set _ _ _ H2 m Hm E) as [Hc|Hc].
    + destruct (ip_set _ _ _ H1 m Hm Hc) as [Hd|Hd]; auto. right. eapply needed_incl; [|exact Hd].
      apply incl_appl, incl_refl.
    + right. eapply needed_incl; [apply incl_appr, incl_refl|]. auto.
  - intros m Hm. destruct (Hsplit m Hm) as [Hc|Hc]; [|now apply (ip_new _ _ _ H2)].
    destruct (ip_new _ _ _ H1 m Hc) as [ss [E1 E2]]. exists ss.
    assert (Hmi : In m (gnodes g)) by (eapply needed_in; [|exact Hc]; intros; apply HT, in_app_iff; auto).
    split; [|apply (ip_old _ _ _ H2); auto].
    assert (Hp : forall p, In p (oget (gpred g) m) -> In p (gnodes g)).
    { intros p Hp. apply (edge_in g p m); auto. split; auto. }
    clear - E1 H2 Hp. revert ss E1. induction (oget (gpred g) m) as [|p ps IH]; intros [|s ss] E1; try discriminate; auto.
    cbn in *. injection E1 as E1a E1b. f_equal; [apply (ip_old _ _ _ H2); auto|apply IH; auto].
  - pose proof (ip_len _ _ _ H1). pose proof (ip_len _ _ _ H2). lia.
Qed.

Lemma get_grow st k m : get (grow_state k st) m = get st m.
Proof.
  unfold state_of, grow_state. destruct (tidx g m) as [i|]; auto.
  destruct (Nat.lt_ge_cases i (length st)) as [Hi|Hi].
  - now rewrite nth_error_app1.
  - rewrite nth_error_app2 by auto. rewrite nth_error_repeat.
    assert (E : nth_error st i = None) by now apply nth_error_None.
    rewrite E. now destruct (_ <? _).
Qed.

Lemma needed_ext st st' Ts m : (forall m, get st m = get st' m) -> needed g st Ts m -> needed g st' Ts m.
Proof. intros H. induction 1 as [t Ht E|p m Hm IH Ed E]; [apply nd_self; auto|eapply nd_pred; eauto]; now rewrite <- H. Qed.

Lemma IP_ext st0 st Ts st' : (forall m, get st m = get st0 m) -> length st0 <= length st -> IP st Ts st' -> IP st0 Ts st'.
Proof.
  intros H Hl [H1 H2 H3 H4]. constructor.
  - intros m x Hm E. apply H1; auto. now rewrite H.
  - intros m Hm E. destruct (H2 m Hm E) as [Hc|Hc]; [left; now rewrite <- H|right; eapply needed_ext; eauto].
  - intros m Hm. apply H3. eapply needed_ext; [|exact Hm]. intros; now rewrite H.
  - lia.
Qed.

Lemma all_some_map_get st ps ss : map (get st) ps = map Some ss -> all_some (map (get st) ps) = Some ss.
Proof. intros ->. apply all_some_map. Qed.

Definition getter (st : list (option T)) (p : nat) : option T :=
  match tidx g p with
  | Some j => match nth_error st j with Some x => x | None => None end
  | None => None
  end.

Lemma init_node_spec st n i ss : In n (gnodes g) -> tidx g n = Some i -> i < length st -> get st n = None ->
  map (get st) (oget (gpred g) n) = map Some ss ->
  exists st', init_node ninit g st n = Ok st' /\ length st' = length st /\ get st' n = Some (ninit n ss) /\
    (forall m, In m (gnodes g) -> m <> n -> get st' m = get st m).
Proof.
  intros Hn Hi Hl Hnone Hss. unfold init_node. rewrite Hi.
  change (map _ (oget (gpred g) n)) with (map (get st) (oget (gpred g) n)).
  rewrite (all_some_map_get _ _ _ Hss).
  destruct (Nat.ltb_spec i (length st)) as [_|]; [|lia].
  eexists. split; [reflexivity|]. split; [apply lset_length|]. split.
  - unfold state_of. rewrite Hi, nth_error_lset_eq by auto. auto.
  - intros m Hm Hne. unfold state_of. destruct (tidx_live m Hm) as [j [Ej _]]. rewrite Ej.
    rewrite nth_error_lset_neq; auto. intros ->. apply Hne. eapply tidx_inj; eauto.
Qed.

Lemma needed_lt (st : list (option T)) ps m i : (forall t, In t ps -> exists j, tidx g t = Some j /\ j < i) ->
  needed g st ps m -> exists j, tidx g m = Some j /\ j < i.
Proof.
  intros H. induction 1 as [t Ht E|p m Hm IH Ed E]; auto.
  destruct IH as [j [Ej Hj]]. destruct (edge_in g p m Hwf Ed) as [Hp _].
  destruct (tidx_live p Hp) as [k [Ek _]]. exists k. split; auto.
  pose proof (edge_lt p m k j Hac Ed Ek Ej). lia.
Qed.

Lemma map_get_some st ps : (forall p, In p ps -> get st p <> None) -> exists ss, map (get st) ps = map Some ss.
Proof.
  induction ps as [|p ps IH]; intros H; [exists []; auto|].
  destruct IH as [ss E]; [intros q Hq; apply H; right; auto|].
  destruct (get st p) as [x|] eqn:Ex; [|exfalso; apply (H p); auto; left; auto].
  exists (x :: ss). cbn. now rewrite Ex, E.
Qed.

(** From the predecessors to the node. *)
Lemma IP_node st st1 n i : In n (gnodes g) -> tidx g n = Some i -> i < length st -> get st n = None ->
  IP st (oget (gpred g) n) st1 ->
  exists st', init_node ninit g st1 n = Ok st' /\ IP st [n] st' /\ length st' = length st1.
Proof.
  intros Hn Hi Hl Hnone H1.
  assert (Hpe : forall p, In p (oget (gpred g) n) -> edge g p n) by (intros p Hp; split; auto).
  assert (Hpi : forall p, In p (oget (gpred g) n) -> In p (gnodes g)).
  { intros p Hp. now apply (edge_in g p n Hwf (Hpe p Hp)). }
  assert (Hplt : forall t, In t (oget (gpred g) n) -> exists j, tidx g t = Some j /\ j < i).
  { intros p Hp. destruct (tidx_live p (Hpi p Hp)) as [j [Ej _]]. exists j. split; auto.
    eapply edge_lt; eauto. }
  assert (Hn1 : get st1 n = None).
  { destruct (get st1 n) as [x|] eqn:Ex; auto. exfalso.
    destruct (ip_set _ _ _ H1 n Hn) as [Hc|Hc]; [congruence|congruence|].
    destruct (needed_lt _ _ _ i Hplt Hc) as [j [Ej Hj]]. assert (i = j) by congruence. lia. }
  assert (Hps : forall p, In p (oget (gpred g) n) -> get st1 p <> None).
  { intros p Hp. destruct (get st p) as [x|] eqn:Ex.
    - rewrite (ip_old _ _ _ H1 p x (Hpi p Hp) Ex). discriminate.
    - destruct (ip_new _ _ _ H1 p) as [ss [_ E]]; [apply nd_self; auto|]. congruence. }
  destruct (map_get_some st1 _ Hps) as [ss Ess].
  pose proof (ip_len _ _ _ H1) as Hl1.
  destruct (init_node_spec st1 n i ss Hn Hi ltac:(lia) Hn1 Ess) as [st' [E [L [G1 G2]]]].
  exists st'. split; auto. split; auto.
  assert (Hne : forall m j, In m (gnodes g) -> tidx g m = Some j -> j < i -> get st' m = get st1 m).
  { intros m j Hm Hj Hlt. apply G2; auto. intros ->. assert (i = j) by congruence. lia. }
  assert (Hsp : forall m, needed g st [n] m -> m = n \/ needed g st (oget (gpred g) n) m).
  { induction 1 as [t [<- | []] Et|p m Hm IH Ed Ep]; auto. right. destruct IH as [-> | IH].
    - apply nd_self; auto. apply Ed. - eapply nd_pred; eauto. }
  constructor.
  - intros m x Hm Em. destruct (Nat.eq_dec m n) as [-> | Hmn]; [congruence|].
    rewrite G2 by auto. apply (ip_old _ _ _ H1); auto.
  - intros m Hm Em. destruct (Nat.eq_dec m n) as [-> | Hmn].
    + right. apply nd_self; auto. left; auto.
    + rewrite G2 in Em by auto. destruct (ip_set _ _ _ H1 m Hm Em) as [Hc|Hc]; auto. right.
      clear - Hc Hnone Hpe. induction Hc as [t Ht Et|p m Hm IH Ed Ep].
      * eapply nd_pred; [apply nd_self; [left; reflexivity|auto]|auto|auto].
      * eapply nd_pred; eauto.
  - intros m Hm. destruct (Hsp m Hm) as [-> | Hc].
    + exists ss. split; auto. rewrite <- Ess. apply map_ext_in. intros p Hp.
      destruct (Hplt p Hp) as [j [Ej Hj]]. eapply Hne; eauto.
    + destruct (ip_new _ _ _ H1 m Hc) as [ss' [E1 E2]]. exists ss'.
      destruct (needed_lt _ _ _ i Hplt Hc) as [j [Ej Hj]].
      assert (Hmi : In m (gnodes g)) by (eapply needed_in; [|exact Hc]; auto).
      split.
      * rewrite <- E1. apply map_ext_in. intros p Hp. assert (Ed : edge g p m) by (split; auto).
        destruct (edge_in g p m Hwf Ed) as [Hpin _]. destruct (tidx_live p Hpin) as [k [Ek _]].
        apply (Hne p k Hpin Ek). pose proof (edge_lt p m k j Hac Ed Ek Ej). lia.
      * rewrite <- E2. eapply Hne; eauto.
  - lia.
Qed.

Lemma rec_init_spec : forall fuel st n i, In n (gnodes g) -> tidx g n = Some i -> i < fuel ->
  exists st', recursive_initialize ninit g fuel st n = Ok st' /\ IP st [n] st' /\ i < length st'.
Proof.
  induction fuel as [|fuel IH]; intros st n i Hn Hi Hf; [lia|].
  cbn [recursive_initialize]. rewrite Hi.
  set (st0 := if length st <=? i then grow_state (i + 1) st else st).
  assert (Hl0 : i < length st0 /\ length st <= length st0).
  { unfold st0. destruct (Nat.leb_spec (length st) i) as [Hle|Hgt]; [|lia].
    unfold grow_state. rewrite app_length, repeat_length. lia. }
  assert (Hg0 : forall m, get st0 m = get st m).
  { intros m. unfold st0. destruct (_ <=? _); auto. apply get_grow. }
  destruct (nth_error_get _ (proj1 Hl0)) as [o Eo]. rewrite Eo.
  assert (Hgn : get st0 n = o) by (unfold state_of; now rewrite Hi, Eo).
  destruct o as [x|].
  - exists st0. split; auto. split; [|tauto]. apply (IP_ext st st0); [auto|tauto|].
    apply ip_refl. intros t [<- | []]. congruence.
  - assert (Hfold : forall ps, (forall p, In p ps -> edge g p n) -> forall s, exists s', rfold (recursive_initialize ninit g fuel) s ps = Ok s' /\ IP s ps s').
    { induction ps as [|p ps IHp]; intros Hp s; cbn [rfold].
      - exists s. split; auto. apply ip_refl. intros t [].
      - assert (Ed : edge g p n) by (apply Hp; left; auto). destruct (edge_in g p n Hwf Ed) as [Hpi _].
        destruct (tidx_live p Hpi) as [j [Ej _]]. pose proof (edge_lt p n j i Hac Ed Ej Hi).
        destruct (IH s p j Hpi Ej ltac:(lia)) as [s1 [E1 [P1 _]]]. rewrite E1.
        destruct (IHp (fun q Hq => Hp q (or_intror Hq)) s1) as [s2 [E2 P2]]. exists s2. split; auto.
        apply (IP_trans s [p] s1 ps s2); auto. intros t Ht. cbn in Ht.
        destruct Ht as [<- | Ht]; auto. apply (edge_in g t n Hwf). apply Hp; right; auto. }
    destruct (Hfold (oget (gpred g) n) (fun p Hp => conj Hn Hp) st0) as [st1 [E1 P1]].
    rewrite E1.
    destruct (IP_node st0 st1 n i Hn Hi (proj1 Hl0) Hgn P1) as [st' [E' [P' L']]].
    exists st'. split; auto. split.
    + apply (IP_ext st st0); auto. tauto.
    + pose proof (ip_len _ _ _ P1). lia.
Qed.

(** [initialize_state] *)
Lemma init_state_spec st : length st = length (gnodes g) ->
  exists st', initialize_state ninit g st = Ok st' /\ length st' = length st /\ IP st (gnodes g) st'.
Proof.
  intros Hl. unfold initialize_state.
  assert (Hgen : forall k, k <= length (gnodes g) -> exists st',
    rfold (fun st i => match nth_error st i, nth_error (gnodes g) i with
                     | Some (Some _), _ => Ok st
                     | Some None, Some n => init_node ninit g st n
                     | _, _ => UB
                     end) st (seq 0 k) = Ok st' /\ length st' = length st /\ IP st (firstn k (gnodes g)) st').
  { induction k as [|k IH]; intros Hk.
    - exists st. cbn. split; auto. split; auto. apply ip_refl. intros t [].
    - destruct IH as [s [E [L P]]]; [lia|]. rewrite seq_S, rfold_app, E. cbn [rfold Nat.add].
      assert (Hkl : k < length (gnodes g)) by lia.
      destruct (nth_error_get _ Hkl) as [n Hn].
      assert (Ef : firstn (S k) (gnodes g) = firstn k (gnodes g) ++ [n]).
      { clear - Hn. revert k Hn. induction (gnodes g) as [|x l IHl]; intros [|k] Hn; try discriminate.
        - injection Hn as ->. reflexivity. - cbn in Hn. cbn. f_equal. now apply IHl. }
      assert (Hni : In n (gnodes g)) by (eapply nth_error_In; eauto).
      pose proof (tidx_nth k n Hn) as Hti.
      assert (Hks : k < length s) by lia. destruct (nth_error_get _ Hks) as [o Eo]. rewrite Eo.
      assert (Hgn : get s n = o) by (unfold state_of; now rewrite Hti, Eo).
      assert (Hfin : forall t, In t (firstn (S k) (gnodes g)) -> In t (gnodes g)).
      { intros t Ht. rewrite <- (firstn_skipn (S k)). apply in_app_iff; auto. }
      destruct o as [x|].
      + exists s. split; auto. split; auto. rewrite Ef. apply (IP_trans st _ s [n] s); auto.
        * rewrite <- Ef. auto.
        * apply ip_refl. intros t [<- | []]. congruence.
      + rewrite Hn.
        assert (Hps : IP s (oget (gpred g) n) s).
        { apply ip_refl. intros p Hp. assert (Ed : edge g p n) by (split; auto).
          destruct (edge_in g p n Hwf Ed) as [Hpi _]. destruct (tidx_live p Hpi) as [j [Ej [Nj _]]].
          pose proof (edge_lt p n j k Hac Ed Ej Hti) as Hjk.
          destruct (get st p) as [x|] eqn:Ex; [rewrite (ip_old _ _ _ P p x Hpi Ex); discriminate|].
          destruct (ip_new _ _ _ P p) as [ss [_ E2]]; [|congruence].
          apply nd_self; auto. apply nth_error_In with (n := j).
          rewrite nth_error_firstn. destruct (Nat.ltb_spec j k); [auto|lia]. }
        destruct (IP_node s s n k Hni Hti Hks Hgn Hps) as [s' [E' [P' L']]].
        rewrite E'. exists s'. split; auto. split; [congruence|]. rewrite Ef.
        apply (IP_trans st _ s [n] s'); auto. rewrite <- Ef; auto. }
  destruct (Hgen (length (gnodes g)) (le_n _)) as [st' H]. rewrite firstn_all in H. eauto.
Qed.

End Init.

(** ** Resetting *)
Section Reset.
Context {T : Type}.
Hypothesis Hac : acyclic g.
Notation get := (@state_of T g).
Record RP (st : list (option T)) (Ts : list nat) (st' : list (option T)) : Prop := {
  rp_len : length st' = length st;
  rp_clear : forall t m, In t Ts -> reaches g t m -> In m (gnodes g) -> get st' m = None;
  rp_keep : forall m, In m (gnodes g) -> (forall t, In t Ts -> ~ reaches g t m) -> get st' m = get st m;
  rp_none : forall m, In m (gnodes g) -> get st m = None -> get st' m = None }.

Lemma RP_trans st T1 st1 T2 st2 : RP st T1 st1 -> RP st1 T2 st2 -> RP st (T1 ++ T2) st2.
Proof.
  intros H1 H2. constructor.
  - rewrite (rp_len _ _ _ H2). apply H1.
  - intros t m Ht Hr Hm. apply in_app_iff in Ht. destruct Ht as [Ht|Ht].
    + apply (rp_none _ _ _ H2); auto. eapply (rp_clear _ _ _ H1); eauto.
    + eapply (rp_clear _ _ _ H2); eauto.
  - intros m Hm H. rewrite (rp_keep _ _ _ H2); [|auto|intros t Ht; apply H, in_app_iff; auto].
    apply (rp_keep _ _ _ H1); auto. intros t Ht; apply H, in_app_iff; auto.
  - intros m Hm E. apply (rp_none _ _ _ H2); auto. apply (rp_none _ _ _ H1); auto.
Qed.

Lemma reaches_le n m i j : In n (gnodes g) -> reaches g n m -> tidx g n = Some i -> tidx g m = Some j -> i <= j.
Proof.
  intros Hn Hr. revert i j Hn. induction Hr as [a b E|a|a b c R1 IH1 R2 IH2]; intros i j Ha Hi Hj.
  - pose proof (edge_lt a b i j Hac E Hi Hj). lia.
  - assert (i = j) by congruence. lia.
  - assert (Hb : In b (gnodes g)).
    { clear - R1 Ha. induction R1 as [a b E|a|a b c R1 IH1 R2 IH2]; auto. apply E. }
    destruct (tidx_live b Hb) as [k [Ek _]]. specialize (IH1 i k Ha Hi Ek). specialize (IH2 k j Hb Ek Hj). lia.
Qed.

Lemma reaches_cases n m : reaches g n m -> m = n \/ exists k, edge g n k /\ reaches g k m.
Proof.
  intros H. apply clos_rt_rt1n in H. destruct H as [|y z E H]; auto. right. exists y. split; auto.
  now apply clos_rt1n_rt.
Qed.

Lemma rec_reset_spec : forall fuel st n i, In n (gnodes g) -> tidx g n = Some i -> length (gnodes g) < fuel + i ->
  exists st', recursive_reset g fuel st n = Ok st' /\ RP st [n] st'.
Proof.
  induction fuel as [|fuel IH]; intros st n i Hn Hi Hf.
  { destruct (tidx_live n Hn) as [j [Ej [_ Lj]]]. assert (i = j) by congruence. cbn in Hf. lia. }
  cbn [recursive_reset]. rewrite Hi.
  destruct (Nat.leb_spec (length st) i) as [Hle|Hgt].
  - exists st. split; auto. constructor; auto.
    intros t m [<- | []] Hr Hm. destruct (tidx_live m Hm) as [j [Ej _]].
    pose proof (reaches_le n m i j Hn Hr Hi Ej). unfold state_of. rewrite Ej.
    assert (E : nth_error st j = None) by (apply nth_error_None; lia). now rewrite E.
  - assert (Hfold : forall ms, (forall m, In m ms -> edge g n m) -> forall s, exists s',
      rfold (fun st m => match tidx g m with None => Ok st | Some _ => recursive_reset g fuel st m end) s ms = Ok s' /\ RP s ms s').
    { induction ms as [|m ms IHm]; intros Hm s; cbn [rfold].
      - exists s. split; auto. constructor; auto. intros t m [].
      - assert (Ed : edge g n m) by (apply Hm; left; auto). destruct (edge_in g n m Hwf Ed) as [_ Hmi].
        destruct (tidx_live m Hmi) as [j [Ej _]]. pose proof (edge_lt n m i j Hac Ed Hi Ej). rewrite Ej.
        destruct (IH s m j Hmi Ej ltac:(lia)) as [s1 [E1 P1]]. rewrite E1.
        destruct (IHm (fun q Hq => Hm q (or_intror Hq)) s1) as [s2 [E2 P2]]. exists s2. split; auto.
        apply (RP_trans s [m] s1 ms s2); auto. }
    destruct (Hfold (oget (gsucc g) n)) with (s := lset i None st) as [s' [E P]].
    { intros m Hm. apply edge_succ; auto. }
    rewrite E. exists s'. split; auto.
    assert (Hset : forall m, In m (gnodes g) -> get (lset i None st) m = if m =? n then None else get st m).
    { intros m Hm. destruct (tidx_live m Hm) as [j [Ej _]]. unfold state_of. rewrite Ej.
      destruct (Nat.eqb_spec m n) as [-> | Hne].
      - assert (i = j) by congruence. subst j. now rewrite nth_error_lset_eq.
      - rewrite nth_error_lset_neq; auto. intros ->. apply Hne. eapply tidx_inj; eauto. }
    constructor.
    + rewrite (rp_len _ _ _ P). apply lset_length.
    + intros t m [<- | []] Hr Hm. destruct (reaches_cases n m Hr) as [-> | [k [Ed Hk]]].
      * apply (rp_none _ _ _ P); auto. rewrite Hset by auto. now rewrite Nat.eqb_refl.
      * apply (rp_clear _ _ _ P k m); auto. now apply (edge_succ g n k Hwf).
    + intros m Hm Hno. rewrite (rp_keep _ _ _ P); auto.
      * rewrite Hset by auto. destruct (Nat.eqb_spec m n) as [-> | _]; auto.
        exfalso. apply (Hno n); [left; auto|apply rt_refl].
      * intros t Ht Hr. apply (Hno n); [left; auto|]. apply rt_trans with t; auto. apply rt_step.
        apply edge_succ; auto.
    + intros m Hm Em. apply (rp_none _ _ _ P); auto. rewrite Hset by auto. now destruct (m =? n).
Qed.
End Reset.
End Sorted.

Lemma needed_all {T} g (st : list (option T)) Ts m : WF g -> (forall t, In t Ts -> In t (gnodes g)) ->
  needed g st Ts m -> needed g st (gnodes g) m.
Proof.
  intros H HT Hm. induction Hm as [t Ht E|p m Hm IH Ed E]; [apply nd_self; auto|eapply nd_pred; eauto].
Qed.

(** Two initialisations agree on what both of them create. *)
Lemma IP_agree {T} g (ninit : nat -> list T -> T) st Ts st1 st2 :
  WF g -> gsorted g = true -> acyclic g -> (forall t, In t Ts -> In t (gnodes g)) ->
  IP g ninit st Ts st1 -> IP g ninit st (gnodes g) st2 ->
  forall m, needed g st Ts m -> state_of g st1 m = state_of g st2 m.
Proof.
  intros H Hs Ha HT P1 P2.
  assert (Hgen : forall k m i, tidx g m = Some i -> i < k -> needed g st Ts m -> state_of g st1 m = state_of g st2 m).
  { induction k as [|k IH]; intros m i Hi Hk Hm; [lia|].
    destruct (ip_new _ _ _ _ _ P1 m Hm) as [s1 [E1 V1]].
    destruct (ip_new _ _ _ _ _ P2 m (needed_all g st Ts m H HT Hm)) as [s2 [E2 V2]].
    rewrite V1, V2. f_equal. f_equal.
    assert (E : map (state_of g st1) (oget (gpred g) m) = map (state_of g st2) (oget (gpred g) m)).
    { apply map_ext_in. intros p Hp.
      assert (Hmi : In m (gnodes g)) by (eapply needed_in; eauto).
      assert (Ed : edge g p m) by (split; auto). destruct (edge_in g p m H Ed) as [Hpi _].
      destruct (state_of g st p) as [x|] eqn:Ex.
      - rewrite (ip_old _ _ _ _ _ P1 p x Hpi Ex), (ip_old _ _ _ _ _ P2 p x Hpi Ex). auto.
      - destruct (tidx_live g H Hs p Hpi) as [j [Ej _]].
        pose proof (edge_lt g H Hs p m j i Ha Ed Ej Hi). apply (IH p j); auto; [lia|]. eapply nd_pred; eauto. }
    rewrite E1, E2 in E. clear - E. revert s2 E. induction s1 as [|x s1 IH]; intros [|y s2] E; try discriminate; auto.
    cbn in E. injection E as -> E. f_equal; auto. }
  intros m Hm. assert (Hmi : In m (gnodes g)) by (eapply needed_in; eauto).
  destruct (tidx_live g H Hs m Hmi) as [i [Ei _]]. apply (Hgen (S i) m i); auto.
Qed.
