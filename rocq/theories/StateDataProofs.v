From Verif Require Import Base StateDataModel StateDataSpec.
Set Implicit Arguments.

Section Proofs.
Context {V : Type}.
Variable veqb : V -> V -> bool.
Hypothesis veqb_spec : forall x y, reflect (x = y) (veqb x y).
Variable vpad : V.

Notation replay := (replay veqb).
Notation replay1 := (replay1 veqb).

Lemma veqb_refl x : veqb x x = true.
Proof. destruct (veqb_spec x x); congruence. Qed.

Lemma replay_app l us1 us2 :
  replay l (us1 ++ us2) = match replay l us1 with Some l' => replay l' us2 | None => None end.
Proof. apply ofold_app. Qed.

Lemma replay_app_some l us1 us2 l1 :
  replay l us1 = Some l1 -> replay l (us1 ++ us2) = replay l1 us2.
Proof. intros H; rewrite replay_app, H; reflexivity. Qed.

Lemma replay_cons l u us l1 : replay1 l u = Some l1 -> replay l (u :: us) = replay l1 us.
Proof. unfold StateDataSpec.replay. cbn. intros ->. reflexivity. Qed.

Lemma replay1_change l i x v : nth_error l i = Some x ->
  replay1 l (change i x v) = Some (lset i v l).
Proof. intros H. unfold StateDataSpec.replay1, change; cbn. now rewrite H, veqb_refl. Qed.

Lemma replay1_placement l v : replay1 l (placement (length l) v) = Some (l ++ [v]).
Proof. unfold StateDataSpec.replay1; cbn. now rewrite Nat.eqb_refl. Qed.

Lemma replay1_removal l x : replay1 (l ++ [x]) (removal (length l) x) = Some l.
Proof.
  unfold StateDataSpec.replay1; cbn [uidx uold uval removal].
  rewrite nth_error_snoc, app_length; cbn [length].
  rewrite veqb_refl, (proj2 (Nat.eqb_eq _ _)) by lia. cbn. now rewrite removelast_last.
Qed.

(** ** Undoing an update list *)

Definition agree (m : list (option V)) (l : list V) : Prop :=
  forall i x, i < length m -> nth_error l i = Some x -> nth_error m i = Some (Some x).

Lemma undo1_length n (u : update V) m : length (undo1 n u m) = length m.
Proof. unfold undo1; destruct (_ <=? _); auto. apply lset_length. Qed.

Lemma undo_length n (us : list (update V)) m : length (fold_right (undo1 n) m us) = length m.
Proof. induction us; cbn; rewrite ?undo1_length; auto. Qed.

Lemma undo1_agree l u l1 m :
  replay1 l u = Some l1 -> agree m l1 -> agree (undo1 (length m) u m) l.
Proof.
  intros H Ha i x Hi Hx. rewrite undo1_length in Hi. unfold undo1.
  unfold StateDataSpec.replay1 in H.
  destruct (uold u) as [o|] eqn:Eo; destruct (uval u) as [v|] eqn:Ev; try discriminate.
  - destruct (nth_error l (uidx u)) as [y|] eqn:Ey; [|discriminate].
    destruct (veqb_spec y o) as [->|]; [|discriminate]. injection H as <-.
    destruct (Nat.leb_spec (length m) (uidx u)).
    + apply Ha; auto. rewrite nth_error_lset_neq by lia. auto.
    + rewrite nth_error_lset. destruct (Nat.eqb_spec (uidx u) i) as [<-|Hne]; cbn.
      * rewrite (proj2 (Nat.ltb_lt _ _)) by lia. congruence.
      * apply Ha; auto. rewrite nth_error_lset_neq by lia. auto.
  - destruct (nth_error l (uidx u)) as [y|] eqn:Ey; [|discriminate].
    destruct (Nat.eqb_spec (S (uidx u)) (length l)) as [El|]; [|discriminate].
    destruct (veqb_spec y o) as [->|]; [|discriminate]. cbn in H. injection H as <-.
    destruct (snoc_cases l) as [->|[l' [z ->]]]; [cbn in El; lia|].
    rewrite removelast_last in *. rewrite app_length in El; cbn in El.
    assert (Hu : uidx u = length l') by lia. rewrite Hu in *.
    rewrite nth_error_snoc in Ey. injection Ey as ->.
    assert (Hlt := nth_error_lt _ _ Hx). rewrite app_length in Hlt; cbn in Hlt.
    destruct (Nat.eq_dec i (length l')) as [->|Hne].
    + rewrite nth_error_snoc in Hx. injection Hx as ->.
      destruct (Nat.leb_spec (length m) (length l')); [lia|].
      now apply nth_error_lset_eq.
    + assert (Hm : nth_error m i = Some (Some x)).
      { apply Ha; auto. rewrite nth_error_app1 in Hx by lia. auto. }
      destruct (_ <=? _); auto. rewrite nth_error_lset_neq by lia. auto.
  - destruct (Nat.eqb_spec (uidx u) (length l)) as [El|]; [|discriminate].
    injection H as <-. assert (Hlt := nth_error_lt _ _ Hx).
    assert (Hm : nth_error m i = Some (Some x)).
    { apply Ha; auto. rewrite nth_error_app1 by lia. auto. }
    destruct (_ <=? _); auto. rewrite nth_error_lset_neq by lia. auto.
Qed.

Lemma undo_agree us : forall l l' m,
  replay l us = Some l' -> agree m l' ->
  agree (fold_right (undo1 (length m)) m us) l.
Proof.
  induction us as [|u us IH]; intros l l' m H Ha.
  - cbn in *. injection H as <-. auto.
  - unfold StateDataSpec.replay in H. cbn [ofold] in H.
    destruct (replay1 l u) as [l1|] eqn:E; [|discriminate].
    cbn [fold_right].
    pose proof (IH l1 l' m H Ha) as Ha1.
    pose proof (undo1_agree _ _ E Ha1) as Hr. rewrite undo_length in Hr. exact Hr.
Qed.

Lemma resize_length n l : length (resize vpad n l) = n.
Proof. unfold resize. rewrite app_length, firstn_length, repeat_length. lia. Qed.

Lemma agree_resize n l : agree (resize vpad n (map Some l)) l.
Proof.
  intros i x Hi Hx. rewrite resize_length in Hi. unfold resize.
  assert (Hlt := nth_error_lt _ _ Hx).
  rewrite nth_error_app1 by (rewrite firstn_length, map_length; lia).
  rewrite nth_error_firstn, (proj2 (Nat.ltb_lt _ _)) by lia.
  now rewrite nth_error_map, Hx.
Qed.

Lemma agree_full m l : length m = length l -> agree m l -> m = map Some l.
Proof.
  intros Hl Ha. apply nth_error_ext. intros i. rewrite nth_error_map.
  destruct (nth_error l i) as [x|] eqn:E.
  - apply Ha; auto. apply nth_error_lt in E; lia.
  - apply nth_error_None in E. apply nth_error_None; lia.
Qed.

(** Reverting is a left inverse of replaying. *)
Lemma revert_replay c (d : adata) :
  aprev d = length c -> replay c (aupd d) = Some (abuf d) ->
  a_revert vpad d = Some (a_init c).
Proof.
  intros Hp Hr. unfold a_revert.
  set (m0 := resize vpad (aprev d) (map Some (abuf d))).
  assert (Hm0 : length m0 = aprev d) by apply resize_length.
  assert (Ha : agree (fold_right (undo1 (length m0)) m0 (aupd d)) c)
    by (eapply undo_agree; [exact Hr|apply agree_resize]).
  rewrite Hm0 in Ha.
  assert (Hf := agree_full (m := fold_right (undo1 (aprev d)) m0 (aupd d)) (l := c)).
  rewrite undo_length in Hf. rewrite Hf by (auto; lia).
  rewrite all_some_map, Hp. reflexivity.
Qed.

(** ** The bulk assignment *)

Lemma assign_overlap_spec pre bs vs :
  let '(r, us) := assign_overlap veqb (length pre) bs vs in
  forall tail,
  replay (pre ++ firstn (length vs) bs ++ tail) us = Some (pre ++ r ++ tail)
  /\ r = firstn (length bs) vs.
Proof.
  revert pre vs; induction bs as [|b bs IH]; intros pre vs.
  - cbn. intros tail. rewrite firstn_nil. cbn. auto.
  - destruct vs as [|v vs]; cbn [assign_overlap].
    + intros tail; cbn. auto.
    + specialize (IH (pre ++ [v]) vs). rewrite app_length in IH. cbn [length] in IH.
      replace (length pre + 1) with (S (length pre)) in IH by lia.
      destruct (assign_overlap veqb (S (length pre)) bs vs) as [r us].
      destruct (veqb_spec b v) as [->|Hne].
      * intros tail. destruct (IH tail) as [IH1 IH2].
        rewrite <- !app_assoc in IH1. cbn in *. rewrite IH1, IH2. auto.
      * intros tail. destruct (IH tail) as [IH1 IH2]. cbn [firstn length].
        split; [|cbn; congruence].
        erewrite replay_cons.
        2:{ cbn [app]. apply replay1_change. rewrite nth_error_app2 by lia.
            now rewrite Nat.sub_diag. }
        cbn [app]. rewrite lset_mid. rewrite <- !app_assoc in IH1. exact IH1.
Qed.

Lemma assign_removals_spec pre rs :
  replay (pre ++ rev rs) (assign_removals (length pre + length rs) rs) = Some pre.
Proof.
  induction rs as [|b rs IH]; cbn [rev assign_removals length].
  - rewrite app_nil_r. reflexivity.
  - replace (length pre + S (length rs) - 1) with (length (pre ++ rev rs))
      by (rewrite app_length, rev_length; lia).
    rewrite app_assoc. erewrite replay_cons by apply replay1_removal.
    rewrite app_length, rev_length. exact IH.
Qed.

Lemma assign_placements_spec vs : forall pre,
  replay pre (assign_placements (length pre) vs) = Some (pre ++ vs).
Proof.
  induction vs as [|v vs IH]; intros pre; cbn [assign_placements].
  - rewrite app_nil_r. reflexivity.
  - erewrite replay_cons by apply replay1_placement.
    specialize (IH (pre ++ [v])). rewrite app_length in IH. cbn [length] in IH.
    replace (length pre + 1) with (S (length pre)) in IH by lia.
    rewrite <- app_assoc in IH. exact IH.
Qed.

Lemma a_assign_spec d values :
  let '(d', _) := a_assign veqb d values in
  abuf d' = values /\ aprev d' = aprev d
  /\ exists us, aupd d' = aupd d ++ us /\ replay (abuf d) us = Some values.
Proof.
  unfold a_assign. set (B := abuf d). set (k := Nat.min (length B) (length values)).
  pose proof (assign_overlap_spec [] B values) as Ho. cbn [length] in Ho.
  destruct (assign_overlap veqb 0 B values) as [prefix us1].
  cbn [abuf aupd aprev].
  assert (Hpre : prefix = firstn k values).
  { destruct (Ho []) as [_ ->]. unfold k. rewrite <- firstn_firstn. now rewrite (firstn_all values). }
  assert (Hlen : length prefix = k).
  { rewrite Hpre, firstn_length. unfold k. lia. }
  assert (Hbuf : prefix ++ skipn k values = values)
    by (rewrite Hpre; apply firstn_skipn).
  split; [exact Hbuf|]. split; [reflexivity|].
  eexists; split; [reflexivity|].
  assert (HB : B = firstn (length values) B ++ skipn k B).
  { destruct (le_ge_dec (length values) (length B)) as [Hc|Hc].
    - unfold k. rewrite Nat.min_r by lia. now rewrite firstn_skipn.
    - unfold k. rewrite Nat.min_l, firstn_all2, skipn_all2, app_nil_r by lia. reflexivity. }
  destruct (Ho (skipn k B)) as [Hr _]. cbn [app] in Hr. rewrite <- HB in Hr.
  rewrite (replay_app_some _ _ _ Hr).
  assert (Hrem := assign_removals_spec prefix (rev (skipn k B))).
  rewrite rev_involutive, rev_length, skipn_length, Hlen in Hrem.
  replace (k + (length B - k)) with (length B) in Hrem by (unfold k; lia).
  rewrite (replay_app_some _ _ _ Hrem).
  assert (Hp := assign_placements_spec (skipn k values) prefix).
  rewrite Hlen, Hbuf in Hp. exact Hp.
Qed.

(** ** The invariant and refinement of every operation *)

Definition Inv (c : list V) (d : adata) : Prop :=
  aprev d = length c /\ replay c (aupd d) = Some (abuf d).

Lemma Inv_init c : Inv c (a_init c).
Proof. split; reflexivity. Qed.

Lemma Inv_extend c d us b d' :
  Inv c d -> replay (abuf d) us = Some b ->
  d' = {| abuf := b; aupd := aupd d ++ us; aprev := aprev d |} -> Inv c d'.
Proof.
  intros [Hp Hr] Hus ->. split; cbn; auto. now rewrite (replay_app_some _ _ _ Hr).
Qed.

Lemma a_update1_spec c d u d' :
  Inv c d -> a_update1 d u = Some d' ->
  Inv c d' /\ spec_update1 (abuf d) u = Some (abuf d').
Proof.
  intros HI H. unfold a_update1, spec_update1 in *.
  destruct (uval u) as [v|] eqn:Ev.
  - destruct (uold u) as [o|] eqn:Eo.
    + destruct (nth_error (abuf d) (uidx u)) as [x|] eqn:Ex; [|discriminate].
      injection H as <-. cbn. rewrite (proj2 (Nat.ltb_lt _ _)) by (eapply nth_error_lt; eauto).
      split; auto. eapply Inv_extend; eauto. erewrite replay_cons by (eapply replay1_change; eauto).
      reflexivity.
    + destruct (Nat.eqb_spec (uidx u) (length (abuf d))) as [E|]; [|discriminate].
      injection H as <-. cbn. split; auto. eapply Inv_extend; eauto. rewrite E.
      erewrite replay_cons by (eapply replay1_placement; eauto). reflexivity.
  - destruct (nth_error (abuf d) (uidx u)) as [x|] eqn:Ex; [|discriminate].
    destruct (Nat.eqb_spec (S (uidx u)) (length (abuf d))) as [E|]; [|discriminate].
    injection H as <-. cbn.
    destruct (snoc_cases (abuf d)) as [Hn|[l' [z Hz]]]; [rewrite Hn in E; cbn in E; lia|].
    rewrite Hz in *. rewrite app_length in *. cbn in *.
    replace (length l' + 1 - 1) with (length l') by lia.
    assert (Hu : uidx u = length l') by lia. rewrite Hu in *.
    rewrite nth_error_snoc in Ex. injection Ex as ->.
    rewrite firstn_snoc_length, removelast_last.
    split; [|destruct (uold u); auto].
    eapply Inv_extend; eauto. rewrite Hz. erewrite replay_cons by apply replay1_removal.
    reflexivity.
Qed.

Lemma a_updates_spec us : forall c d d',
  Inv c d -> ofold a_update1 d us = Some d' ->
  Inv c d' /\ ofold spec_update1 (abuf d) us = Some (abuf d').
Proof.
  induction us as [|u us IH]; intros c d d' HI H; cbn in *.
  - injection H as <-. auto.
  - destruct (a_update1 d u) as [d1|] eqn:E; [|discriminate].
    destruct (a_update1_spec _ HI E) as [HI1 ->]. eauto.
Qed.

Lemma a_step_spec c d o d' b :
  Inv c d -> a_step veqb vpad d o = Some (d', b) ->
  exists c', spec_op c (abuf d) o = Some (c', abuf d') /\ Inv c' d'.
Proof.
  intros HI H. destruct o as [i v|i j|v| |vs|us| | ]; cbn in H |- *.
  - unfold a_set in H. destruct (nth_error (abuf d) i) as [old|] eqn:E; [|discriminate].
    rewrite (proj2 (Nat.ltb_lt _ _)) by (eapply nth_error_lt; eauto).
    destruct (veqb_spec old v) as [->|Hne]; injection H as <- <-.
    + rewrite lset_same by auto. eauto.
    + eexists; split; [reflexivity|]. eapply Inv_extend; eauto.
      erewrite replay_cons by (eapply replay1_change; eauto). reflexivity.
  - unfold a_exchange in H.
    destruct (nth_error (abuf d) i) as [x|] eqn:Ei; [|discriminate].
    destruct (nth_error (abuf d) j) as [y|] eqn:Ej; [|discriminate].
    destruct (Nat.eqb_spec i j) as [->|Hij].
    { injection H as <- <-. assert (x = y) by congruence; subst.
      rewrite (lset_same _ _ Ej), (lset_same _ _ Ej). eauto. }
    destruct (veqb_spec x y) as [->|Hne]; injection H as <- <-.
    { rewrite (lset_same _ _ Ej), (lset_same _ _ Ei). eauto. }
    cbn. rewrite (lset_comm _ _ _ Hij).
    eexists; split; [reflexivity|]. eapply Inv_extend; eauto.
    erewrite replay_cons by (eapply replay1_change; eauto).
    erewrite replay_cons.
    2:{ eapply replay1_change. rewrite nth_error_lset_neq by auto. exact Ej. }
    reflexivity.
  - injection H as <- <-. cbn. eexists; split; [reflexivity|].
    eapply Inv_extend; eauto. erewrite replay_cons by apply replay1_placement. reflexivity.
  - unfold a_pop in H.
    destruct (snoc_cases (abuf d)) as [Hn|[l' [z Hz]]].
    { rewrite Hn in H. cbn in H. discriminate. }
    rewrite Hz in *. rewrite app_length in H. cbn in H.
    replace (length l' + 1 - 1) with (length l') in H by lia.
    rewrite nth_error_snoc, firstn_snoc_length in H. injection H as <- <-. cbn.
    rewrite removelast_last.
    exists c; split; [destruct l'; reflexivity|].
    eapply Inv_extend; eauto. rewrite Hz. erewrite replay_cons by apply replay1_removal.
    reflexivity.
  - pose proof (a_assign_spec d vs) as Ha. destruct (a_assign veqb d vs) as [d1 b1].
    injection H as <- <-. destruct Ha as [Hb [Hp [us [Hu Hr]]]].
    rewrite Hb. eexists; split; [reflexivity|].
    destruct HI as [HI1 HI2]. split; [congruence|].
    rewrite Hu, (replay_app_some _ _ _ HI2), Hb. exact Hr.
  - unfold a_update in H. destruct (ofold a_update1 d us) as [d1|] eqn:E; [|discriminate].
    injection H as <- <-. destruct (a_updates_spec _ HI E) as [H1 ->]. eauto.
  - injection H as <- <-. eexists; split; [reflexivity|]. apply Inv_init.
  - destruct HI as [HI1 HI2]. rewrite (revert_replay _ _ HI1 HI2) in H. cbn in H.
    injection H as <- <-. cbn. eexists; split; [reflexivity|]. apply Inv_init.
Qed.

(** The model accepts exactly the operations the specification allows. *)
Lemma a_step_defined c d o :
  Inv c d -> (spec_op c (abuf d) o <> None <-> a_step veqb vpad d o <> None).
Proof.
  intros HI. split.
  - destruct o as [i v|i j|v| |vs|us| | ]; cbn; intros H; try discriminate.
    + unfold a_set. destruct (Nat.ltb_spec i (length (abuf d))) as [Hl|]; [|congruence].
      destruct (nth_error_get _ Hl) as [x ->]. destruct (veqb x v); discriminate.
    + unfold a_exchange. destruct (nth_error (abuf d) i); [|congruence].
      destruct (nth_error (abuf d) j); [|congruence].
      destruct (i =? j); [discriminate|]. destruct (veqb _ _); discriminate.
    + unfold a_pop. destruct (snoc_cases (abuf d)) as [Hn|[l' [z Hz]]].
      * rewrite Hn in H; congruence.
      * rewrite Hz, app_length; cbn. replace (length l' + 1 - 1) with (length l') by lia.
        rewrite nth_error_snoc. discriminate.
    + unfold a_update. destruct (ofold a_update1 d us) eqn:E; [discriminate|].
      exfalso. revert c d HI H E. induction us as [|u us IH]; cbn; intros c d HI H E; [discriminate|].
      destruct (a_update1 d u) as [d1|] eqn:E1.
      * destruct (a_update1_spec _ HI E1) as [HI1 E2]. rewrite E2 in H. eapply IH; eauto.
      * apply H. replace (spec_update1 (abuf d) u) with (@None (list V)); [reflexivity|].
        unfold a_update1, spec_update1 in *.
        destruct (uval u), (uold u); try discriminate.
        -- destruct (Nat.ltb_spec (uidx u) (length (abuf d))) as [Hl|]; auto.
           destruct (nth_error_get _ Hl) as [x Ex]; rewrite Ex in E1; discriminate.
        -- destruct (_ =? _); [discriminate|auto].
        -- destruct (Nat.eqb_spec (S (uidx u)) (length (abuf d))); auto.
           destruct (@nth_error_get _ (uidx u) (abuf d)) as [x Ex]; [lia|].
           rewrite Ex in E1; discriminate.
        -- destruct (Nat.eqb_spec (S (uidx u)) (length (abuf d))); auto.
           destruct (@nth_error_get _ (uidx u) (abuf d)) as [x Ex]; [lia|].
           rewrite Ex in E1; discriminate.
    + destruct HI as [HI1 HI2]. rewrite (revert_replay _ _ HI1 HI2). discriminate.
  - intros H. destruct (a_step veqb vpad d o) as [[d' b]|] eqn:E; [|congruence].
    destruct (a_step_spec _ HI E) as [c' [-> _]]. discriminate.
Qed.

Lemma a_run_spec os : forall c d d',
  Inv c d -> a_run veqb vpad d os = Some d' ->
  exists c', spec_run (c, abuf d) os = Some (c', abuf d') /\ Inv c' d'.
Proof.
  induction os as [|o os IH]; intros c d d' HI H; cbn in *.
  - injection H as <-. eauto.
  - destruct (a_step veqb vpad d o) as [[d1 b]|] eqn:E; cbn in H; [|discriminate].
    destruct (a_step_spec _ HI E) as [c1 [Hs HI1]].
    destruct (IH c1 d1 d' HI1 H) as [c' [Hr HI']].
    exists c'. unfold spec_run in *. cbn [ofold fst snd]. rewrite Hs. auto.
Qed.

Lemma a_run_defined os : forall c d,
  Inv c d -> spec_run (c, abuf d) os <> None -> a_run veqb vpad d os <> None.
Proof.
  induction os as [|o os IH]; intros c d HI H; cbn in *; [discriminate|].
  unfold spec_run in H. cbn [ofold fst snd] in H.
  destruct (spec_op c (abuf d) o) as [[c1 l1]|] eqn:E; [|congruence].
  assert (Hd : a_step veqb vpad d o <> None).
  { apply (a_step_defined o HI). congruence. }
  destruct (a_step veqb vpad d o) as [[d1 b]|] eqn:E1; [|congruence]. cbn.
  destruct (a_step_spec _ HI E1) as [c2 [Hs HI2]]. rewrite E in Hs. injection Hs as <- ->.
  eapply IH; eauto.
Qed.

(** Change flags of single-element moves. *)
Lemma a_set_flag d i v d' b :
  a_set veqb d i v = Some (d', b) -> (b = true <-> abuf d' <> abuf d).
Proof.
  unfold a_set. destruct (nth_error (abuf d) i) as [old|] eqn:E; [|discriminate].
  destruct (veqb_spec old v) as [->|Hne]; intros H; injection H as <- <-; cbn.
  - split; congruence.
  - split; auto. intros _ Hc.
    assert (nth_error (lset i v (abuf d)) i = Some v)
      by (apply nth_error_lset_eq; eapply nth_error_lt; eauto).
    congruence.
Qed.

Lemma a_exchange_flag d i j d' b :
  a_exchange veqb d i j = Some (d', b) -> (b = true <-> abuf d' <> abuf d).
Proof.
  unfold a_exchange. destruct (nth_error (abuf d) i) as [x|] eqn:Ei; [|discriminate].
  destruct (nth_error (abuf d) j) as [y|] eqn:Ej; [|discriminate].
  destruct (Nat.eqb_spec i j); [intros H; injection H as <- <-; split; congruence|].
  destruct (veqb_spec x y); intros H; injection H as <- <-; [split; congruence|].
  cbn; split; auto. intros _ Hc.
  assert (Hx : nth_error (lset j x (lset i y (abuf d))) j = Some x)
    by (apply nth_error_lset_eq; rewrite lset_length; eapply nth_error_lt; eauto).
  congruence.
Qed.

End Proofs.
