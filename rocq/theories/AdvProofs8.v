(** Propagation when the axis of the index arrays is in front. *)
From Coq Require Import Sorted.
From Verif Require Import Base SliceModel ShapeModel ShapeSpec ShapeProofs StateDataModel StateDataSpec Replay NodeSpec BinaryModel Num QuadModel PermModel PermSpec PermProofs DedupModel AdvModel AdvSpec AdvProofs AdvProofs2 AdvProofs3 AdvProofs4 AdvProofs5 AdvProofs6 AdvProofs7.
Local Open Scope Z_scope.

Lemma sorted_split l : forall lo b, StronglySorted lt l -> (lo <= b)%nat -> Forall (fun x => x < b)%nat l -> (forall i, (lo <= i < b)%nat -> In i l) ->
  exists l1, l = l1 ++ seq lo (b - lo) /\ Forall (fun x => x < lo)%nat l1.
Proof.
  induction l as [|h t IH]; intros lo b S Hb F H.
  - exists []. assert (b = lo) as -> by (destruct (Nat.eq_dec lo b); [auto|exfalso; apply (H lo); lia]). rewrite Nat.sub_diag. split; [reflexivity|constructor].
  - inversion S as [|? ? S1 S2]; subst. inversion F as [|? ? F1 F2]; subst. rewrite Forall_forall in S2.
    destruct (Nat.lt_ge_cases h lo) as [Hh|Hh].
    + destruct (IH lo b S1 Hb F2) as (l1 & -> & Hl).
      * intros i Hi. destruct (H i Hi) as [->|]; [lia|auto].
      * exists (h :: l1). split; [reflexivity|]. constructor; auto.
    + assert (h = lo) as ->.
      { destruct (H lo) as [E|E]; [lia|auto|]. specialize (S2 _ E). lia. }
      destruct (IH (Datatypes.S lo) b S1) as (l1 & E & Hl); [lia|exact F2| |].
      * intros i Hi. destruct (H i) as [->|]; [lia|lia|auto].
      * exists []. split; [|constructor]. assert (l1 = []) as ->.
        { destruct l1 as [|x l1]; [reflexivity|]. apply Forall_inv in Hl. specialize (S2 x). rewrite E in S2. specialize (S2 (or_introl eq_refl)). lia. }
        cbn [app] in *. rewrite E. replace (b - lo)%nat with (Datatypes.S (b - Datatypes.S lo)) by lia. reflexivity.
Qed.
Lemma map_app_inv {X Y} (f : X -> Y) l l1 l2 : map f l = l1 ++ l2 -> exists k1 k2, l = k1 ++ k2 /\ map f k1 = l1 /\ map f k2 = l2.
Proof.
  revert l1; induction l as [|h t IH]; intros [|x l1] E.
  - exists [], []. cbn in *. auto.
  - discriminate.
  - exists [], (h :: t). auto.
  - cbn in E. injection E as E1 E2. destruct (IH _ E2) as (k1 & k2 & -> & E3 & E4). exists (h :: k1), k2. cbn. rewrite E3, E1. auto.
Qed.

Lemma NoDup_app_left {X} (l1 l2 : list X) : NoDup (l1 ++ l2) -> NoDup l1.
Proof.
  induction l1 as [|x l1 IH]; intros N; [constructor|]. cbn [app] in N. apply NoDup_cons_iff in N. destruct N as [N1 N2]. constructor; [|auto].
  intros H. apply N1. apply in_or_app. now left.
Qed.
Lemma rank_seq_at sl b : map (fun sub => Z.of_nat b + rank sl sub) (all_idx sl) = map Z.of_nat (seq b (length (all_idx sl))).
Proof.
  apply nth_error_ext. intros i. rewrite !nth_error_map, nth_error_seq. destruct (Nat.ltb_spec i (length (all_idx sl))) as [H|H].
  - destruct (all_idx_nth _ _ H) as (idx & -> & _ & E). cbn [option_map]. f_equal. lia.
  - rewrite (proj2 (nth_error_None _ _)) by lia. reflexivity.
Qed.

Section Mode1.
Variables strict dbg : bool.
Variable A : adv.
Hypothesis OK : adv_ok A.
Variable konst : bool.
Hypothesis SUP : supported A konst.
Hypothesis WF : wf_shape (ad_shape A).
Variable m : nat.
Let spec := ad_spec A.
Let ashape := ad_shape A.
Hypothesis B : ad_b1 A = true.
Let sl := pick false spec ashape.
Let P1 := length (all_idx sl).

Lemma Esl la : sls A la = sl.
Proof. apply (b1_sls A OK konst SUP WF la B). Qed.
Lemma sl_nonneg : Forall (fun d => 0 <= d) sl.
Proof. rewrite <- (Esl 0). apply (sls_nonneg A WF). Qed.
Lemma P1_prod : Z.of_nat P1 = prod sl.
Proof. apply all_idx_len. apply sl_nonneg. Qed.

Lemma pos_b1 n j sub : nfit A n -> (j < n)%nat -> in_range sl sub -> Z.of_nat (pos A j sub) = Z.of_nat (j * P1) + rank sl sub.
Proof.
  intros Hn Hj Hs. rewrite <- (Esl 0) in Hs. destruct (pos_rank A OK konst SUP WF n 0 j sub Hn Hj Hs) as [-> _]. unfold cK. rewrite B.
  change (rank (Z.of_nat n :: sls A 0) (Z.of_nat j :: sub) = Z.of_nat (j * P1) + rank sl sub).
  rewrite rank_cons by (apply in_range_len; exact Hs). rewrite Esl, <- P1_prod. lia.
Qed.
Lemma pos_b1_lt n j sub : nfit A n -> (j < n)%nat -> in_range sl sub -> (j * P1 <= pos A j sub < Datatypes.S j * P1)%nat.
Proof. intros Hn Hj Hs. pose proof (pos_b1 n j sub Hn Hj Hs). pose proof (rank_bounds _ _ Hs). rewrite <- P1_prod in *. lia. Qed.

Variables (inp0 : list (list num)) (v0 a0 : list num) (arrs0 : list (list num)) (n0 : nat).
Variables (inp1 : list (list num)) (v1 a1 : list num) (arrs1 : list (list num)) (n1 : nat).
Hypothesis G0 : Good A m inp0 v0 a0 arrs0 n0.
Hypothesis G1 : Good A m inp1 v1 a1 arrs1 n1.
Hypothesis N0 : nfit A n0.
Hypothesis N1 : nfit A n1.
Hypothesis F0 : fits ashape a0.
Hypothesis F1 : fits ashape a1.
Let M := Nat.max (length v0) (length v1).
Let fixed := dynamic (ad_oshape A) = false.

Lemma lv0 : length v0 = (n0 * P1)%nat.
Proof. pose proof (g_vlen _ _ _ _ _ _ _ G0) as E. rewrite Esl, <- P1_prod in E. lia. Qed.
Lemma lv1 : length v1 = (n1 * P1)%nat.
Proof. pose proof (g_vlen _ _ _ _ _ _ _ G1) as E. rewrite Esl, <- P1_prod in E. lia. Qed.
Lemma not_fixed : n0 <> n1 -> ~ fixed.
Proof.
  intros Hne Hf. unfold nfit, fits_len in N0, N1. destruct (dynamic (ad_ishape A)) eqn:D; [|lia].
  unfold fixed in Hf. rewrite (ok_oshape _ OK), B in Hf. destruct (ad_ishape A) as [|k0 t]; [discriminate D|]. cbn [app dynamic] in *. congruence.
Qed.
Hypothesis SAFE : strict = true -> dynamic (ad_ishape A) = false.
Lemma not_strict : n0 <> n1 -> strict = false.
Proof.
  intros Hne. destruct strict; [|reflexivity]. exfalso. specialize (SAFE eq_refl). unfold nfit, fits_len in N0, N1. rewrite SAFE in *. lia.
Qed.

Notation val j sub := (Some (nth_error a1 (src A arrs1 j sub))).

Section WithD.
Variable d2 : gdata.
Notation DIx := (DI v0 M fixed d2).

Lemma fill_changes us : forall d rest,
  Forall (fun u => uold u <> None /\ uval u = Some (contrib (strs A) arrs1 (uidx u)) /\ (uidx u < n1)%nat /\ (uidx u < n0)%nat) us ->
  NoDup (map (@uidx Z) us) -> DIx d -> full d -> length (a_dat d) = length v0 ->
  exists d', b1_fill strict dbg A a1 (us ++ rest) d = rbind (b1_fill strict dbg A a1 rest d') (fun r => Ok (fst r, map (@uidx Z) us ++ snd r)) /\
    DIx d' /\ full d' /\ length (a_dat d') = length v0 /\
    (forall j sub, In j (map (@uidx Z) us) -> in_range sl sub -> nth_error (a_dat d') (pos A j sub) = val j sub) /\
    (forall j sub, ~ In j (map (@uidx Z) us) -> (j < n0)%nat -> in_range sl sub -> nth_error (a_dat d') (pos A j sub) = nth_error (a_dat d) (pos A j sub)).
Proof.
  induction us as [|u us IH]; intros d rest H N I F L.
  - exists d. cbn [app map]. split; [destruct (b1_fill strict dbg A a1 rest d) as [[? ?]| |]; reflexivity|]. split; [exact I|]. split; [exact F|]. split; [exact L|]. split; [intros ? ? []|auto].
  - destruct (Forall_inv H) as (Hu1 & Hu2 & Hu3 & Hu4). apply Forall_inv_tail in H. cbn [map] in N. apply NoDup_cons_iff in N as [Nu Nt]. cbn [app b1_fill]. rewrite Hu2.
    destruct (uold u) as [o|] eqn:Eo; [|congruence].
    destruct (fill_row strict dbg A OK konst SUP WF m v0 M fixed d2 d _ v1 a1 arrs1 n1 n1 (uidx u) G1 F1) as (d' & -> & I' & F' & L' & W & R); auto.
    + unfold M. lia.
    + intros sub Hs. rewrite Esl in Hs. pose proof (pos_b1_lt n0 _ _ N0 Hu4 Hs). rewrite L, lv0. nia.
    + cbn [rbind]. destruct (IH d' rest) as (d'' & E & I'' & F'' & L'' & W'' & R''); auto.
      * congruence.
      * exists d''. split; [rewrite E; destruct (b1_fill strict dbg A a1 rest d'') as [[? ?]| |]; reflexivity|]. split; [exact I''|]. split; [exact F''|]. split; [exact L''|]. split.
        -- intros j sub [<-|Hj] Hs; [|auto]. rewrite R'' by auto. apply W. now rewrite Esl.
        -- intros j sub Hj Hj0 Hs. cbn [map In] in Hj. rewrite R'' by (auto; tauto). apply R. intros sub' Hs' Ep. rewrite Esl in Hs'.
           pose proof (pos_b1_lt n0 _ _ N0 Hj0 Hs). pose proof (pos_b1_lt n0 _ _ N0 Hu4 Hs'). rewrite Ep in *. assert (j = uidx u) by nia. subst j. tauto.
Qed.

Lemma place_row d j : (j < n1)%nat -> DIx d -> full d -> ~ fixed -> length (a_dat d) = (j * P1)%nat ->
  exists d', fill_subspace strict dbg A FPlace a1 (contrib (strs A) arrs1 j) j d = Ok d' /\ DIx d' /\ full d' /\
    length (a_dat d') = (Datatypes.S j * P1)%nat /\ (forall p, (p < length (a_dat d))%nat -> nth_error (a_dat d') p = nth_error (a_dat d) p) /\
    (forall sub, in_range sl sub -> nth_error (a_dat d') (pos A j sub) = val j sub).
Proof.
  intros Hj I F X L. unfold fill_subspace. cbn [is_back]. rewrite (fill_pts A OK WF). unfold order. rewrite Esl.
  set (pts := map _ (all_idx sl)).
  assert (Hpts : pts = map (fun sub => (Z.of_nat (j * P1) + rank sl sub, srcz A arrs1 j sub)) (all_idx sl)).
  { apply map_ext_in. intros sub Hs. apply in_all_idx in Hs. f_equal. rewrite <- (pos_b1 n1) by auto. symmetry. apply (pos_val A OK konst SUP WF n1 0); auto. now rewrite Esl. }
  assert (Lp : length pts = P1) by (unfold pts; now rewrite map_length).
  destruct (fill_place_ok strict dbg v0 M fixed a1 d2 pts d I F X) as (d' & -> & I' & F' & E').
  - rewrite Lp, L. unfold M. rewrite lv1. nia.
  - rewrite Lp, L, Hpts, map_map. cbn [fst]. apply rank_seq_at.
  - rewrite Hpts. apply Forall_map. apply Forall_forall. intros sub Hs. apply in_all_idx in Hs. cbn [snd]. rewrite <- (Esl (length a1)) in Hs.
    destruct (good_src A OK WF m _ _ _ _ _ j sub G1 Hj Hs F1) as (cs & _ & _ & Bd & _). exact Bd.
  - exists d'. split; [reflexivity|]. split; [exact I'|]. split; [exact F'|]. rewrite E'. split; [|split].
    + rewrite app_length, map_length, Lp, L. lia.
    + intros p Hp. now rewrite nth_error_app1.
    + intros sub Hs. pose proof (pos_b1 n1 j sub N1 Hj Hs) as Ep. pose proof (rank_bounds _ _ Hs).
      rewrite nth_error_app2 by lia. replace (pos A j sub - length (a_dat d))%nat with (Z.to_nat (rank sl sub)) by lia.
      rewrite Hpts, map_map. cbn [snd]. rewrite nth_error_map, nth_all_idx by exact Hs. reflexivity.
Qed.

Lemma fill_places c : forall k us d, map (@uidx Z) us = seq k c -> (k + c)%nat = n1 ->
  Forall (fun u => uold u = None /\ uval u = Some (contrib (strs A) arrs1 (uidx u))) us ->
  (c = 0%nat \/ ~ fixed) -> DIx d -> full d -> length (a_dat d) = (k * P1)%nat ->
  exists d', b1_fill strict dbg A a1 us d = Ok (d', map (@uidx Z) us) /\ DIx d' /\ full d' /\
    length (a_dat d') = length v1 /\ (forall p, (p < length (a_dat d))%nat -> nth_error (a_dat d') p = nth_error (a_dat d) p) /\
    (forall j sub, (k <= j < n1)%nat -> in_range sl sub -> nth_error (a_dat d') (pos A j sub) = val j sub).
Proof.
  induction c as [|c IH]; intros k us d Em Ek H X I F L.
  - destruct us; [|discriminate Em]. exists d. cbn [b1_fill map]. split; [reflexivity|]. split; [exact I|]. split; [exact F|]. split; [rewrite L, lv1; f_equal; lia|]. split; [auto|intros; lia].
  - destruct us as [|u us]; [discriminate Em|]. cbn [map seq] in Em. injection Em as Eu Em. destruct (Forall_inv H) as (Hu1 & Hu2). apply Forall_inv_tail in H.
    destruct X as [X|X]; [discriminate|]. cbn [b1_fill]. rewrite Hu1, Hu2. rewrite Eu in *.
    destruct (place_row d k) as (d' & -> & I' & F' & L' & Rd & W); auto; [lia|]. cbn [rbind].
    destruct (IH (Datatypes.S k) us d') as (d'' & -> & I'' & F'' & L'' & R'' & W''); auto; [lia|].
    cbn [rbind fst snd map]. exists d''. rewrite Eu. split; [reflexivity|]. split; [exact I''|]. split; [exact F''|]. split; [exact L''|]. split.
    + intros p Hp. rewrite R'' by lia. apply Rd. exact Hp.
    + intros j sub Hj Hs. destruct (Nat.eq_dec j k) as [->|]; [|apply W''; auto; lia].
      rewrite R''; [apply W; exact Hs|]. rewrite L'. apply (pos_b1_lt n1 k sub N1); auto; lia.
Qed.

Lemma remove_row d j : strict = false -> (j < n0)%nat -> DIx d -> full d -> ~ fixed -> length (a_dat d) = (Datatypes.S j * P1)%nat ->
  exists d', fill_subspace strict dbg A FRemove a1 0 j d = Ok d' /\ DIx d' /\ full d' /\ a_dat d' = firstn (j * P1) (a_dat d).
Proof.
  intros Hst Hj I F X L. unfold fill_subspace. cbn [is_back]. rewrite (fill_pts A OK WF). unfold order. rewrite Esl.
  set (pts := map _ (rev (all_idx sl))).
  assert (Lp : length pts = P1) by (unfold pts; now rewrite map_length, rev_length).
  destruct (fill_remove_ok strict dbg v0 M fixed a1 d2 pts Hst d I F X) as (d' & -> & I' & F' & E').
  - rewrite L. unfold M. rewrite lv0. nia.
  - rewrite Lp, L. nia.
  - rewrite Lp, L. replace (Datatypes.S j * P1 - P1)%nat with (j * P1)%nat by nia. pose proof (rank_seq_at sl (j * P1)) as Q. fold P1 in Q. rewrite map_rev, <- Q, <- map_rev.
    unfold pts. rewrite map_map. cbn [fst]. apply map_ext_in. intros sub Hs. apply in_rev in Hs. apply in_all_idx in Hs.
    rewrite <- (pos_b1 n0) by auto. symmetry. apply (pos_val A OK konst SUP WF n0 0); auto. now rewrite Esl.
  - exists d'. split; [reflexivity|]. split; [exact I'|]. split; [exact F'|]. rewrite E', Lp, L. f_equal. nia.
Qed.

Lemma fill_removes c : forall us d rest, map (@uidx Z) us = seq n1 c -> (n1 + c <= n0)%nat ->
  Forall (fun u => uval u = None) us ->
  (c = 0%nat \/ ~ fixed /\ strict = false) -> DIx d -> full d -> length (a_dat d) = ((n1 + c) * P1)%nat ->
  exists d', b1_remove strict dbg A a1 (rev us ++ rest) d = b1_remove strict dbg A a1 rest d' /\ DIx d' /\ full d' /\ a_dat d' = firstn (n1 * P1) (a_dat d).
Proof.
  induction c as [|c IH]; intros us d rest Em Ek H X I F L.
  - destruct us; [|discriminate Em]. exists d. cbn [rev app]. split; [reflexivity|]. split; [exact I|]. split; [exact F|]. rewrite firstn_all2; [reflexivity|]. rewrite L. nia.
  - rewrite seq_S in Em. apply map_app_inv in Em. destruct Em as (us1 & us2 & -> & E1 & E2). destruct us2 as [|u [|? ?]]; try discriminate E2. cbn in E2. injection E2 as Eu.
    destruct X as [X|[X Hst]]; [discriminate|]. apply Forall_app in H. destruct H as [H1 H2]. apply Forall_inv in H2. rewrite rev_app_distr. cbn [rev app b1_remove]. rewrite H2.
    destruct (remove_row d (uidx u) Hst) as (d' & Er & I' & F' & E'); auto; [lia|rewrite L, Eu; f_equal; lia|].
    rewrite Hst in *. rewrite Er. cbn [rbind]. destruct (IH us1 d' rest E1) as (d'' & -> & I'' & F'' & E''); auto.
    + lia.
    + rewrite E', firstn_length, L, Eu. nia.
    + exists d''. split; [reflexivity|]. split; [exact I''|]. split; [exact F''|]. rewrite E'', E', firstn_firstn. f_equal. rewrite Eu. nia.
Qed.

(** The whole step. *)
Variable pa : pin num.
Hypothesis Epa : pview pa = a1.
Hypothesis Rpa : replay qeqb a0 (pdiff pa) = Some a1.
Hypothesis Kpa : konst = true -> pdiff pa = [].
Hypothesis Cpa : dynamic ashape = true -> hd false spec = true -> Forall (fun u => Z.of_nat (uidx u) < Z.of_nat m * prod (tl ashape) -> is_change u) (pdiff pa).
Hypothesis Xpa : dynamic ashape = false -> Forall is_change (pdiff pa).
Variable us : list (update Z).
Let off0 := map (contrib (strs A) arrs0) (seq 0 n0).
Let off1 := map (contrib (strs A) arrs1) (seq 0 n1).
Hypothesis Us : StronglySorted lt (map (@uidx Z) us).
Hypothesis Uv : forall u, In u us -> uold u = nth_error off0 (uidx u) /\ uval u = nth_error off1 (uidx u) /\ ~ (uold u = None /\ uval u = None).
Hypothesis Ua : forall i, nth_error off0 i <> nth_error off1 i -> In i (map (@uidx Z) us).
Hypothesis Dd : a_dat d2 = map Some v0.
Hypothesis Df : a_dif d2 = [].
Hypothesis Do : a_off d2 = off1.
Hypothesis Dr : RevI konst (a_rev d2) (nth_error off1).

Lemma off0_nth i : nth_error off0 i = if (i <? n0)%nat then Some (contrib (strs A) arrs0 i) else None.
Proof. unfold off0. rewrite nth_error_map, nth_error_seq. destruct (i <? n0)%nat; reflexivity. Qed.
Lemma off1_nth i : nth_error off1 i = if (i <? n1)%nat then Some (contrib (strs A) arrs1 i) else None.
Proof. unfold off1. rewrite nth_error_map, nth_error_seq. destruct (i <? n1)%nat; reflexivity. Qed.

Lemma split_us : exists us1 us2, us = us1 ++ us2 /\ map (@uidx Z) us2 = seq (Nat.min n0 n1) (Nat.max n0 n1 - Nat.min n0 n1) /\
  Forall (fun u => uold u <> None /\ uval u = Some (contrib (strs A) arrs1 (uidx u)) /\ (uidx u < n1)%nat /\ (uidx u < n0)%nat) us1.
Proof.
  destruct (sorted_split (map (@uidx Z) us) (Nat.min n0 n1) (Nat.max n0 n1) Us) as (l1 & E & Hl).
  - lia.
  - apply Forall_map. apply Forall_forall. intros u Hu. destruct (Uv u Hu) as (E1 & E2 & E3). rewrite off0_nth in E1. rewrite off1_nth in E2.
    destruct (Nat.ltb_spec (uidx u) n0), (Nat.ltb_spec (uidx u) n1); try lia. exfalso. apply E3. auto.
  - intros i Hi. apply Ua. rewrite off0_nth, off1_nth. destruct (Nat.ltb_spec i n0), (Nat.ltb_spec i n1); try lia; discriminate.
  - apply map_app_inv in E. destruct E as (us1 & us2 & -> & E1 & E2). exists us1, us2. split; [reflexivity|]. split; [exact E2|].
    apply Forall_forall. intros u Hu. assert (Hi : (uidx u < Nat.min n0 n1)%nat) by (rewrite <- E1 in Hl; rewrite Forall_map, Forall_forall in Hl; auto).
    destruct (Uv u) as (Q1 & Q2 & _); [apply in_or_app; now left|]. rewrite off0_nth in Q1. rewrite off1_nth in Q2.
    destruct (Nat.ltb_spec (uidx u) n0), (Nat.ltb_spec (uidx u) n1); try lia. rewrite Q1, Q2. repeat split; auto; discriminate.
Qed.

Lemma sorted_nodup (l : list nat) : StronglySorted lt l -> NoDup l.
Proof. clear. induction 1 as [|x l S IH F]; constructor; auto. intros Hin. rewrite Forall_forall in F. specialize (F _ Hin). lia. Qed.

Lemma idx_pick i : (i < length a1)%nat -> exists idx, in_range (shape_now ashape (length a1)) idx /\ rank (shape_now ashape (length a1)) idx = Z.of_nat i.
Proof.
  intros Hi. pose proof (fits_prod A OK WF a1 F1) as Ep. fold ashape in Ep.
  destruct (all_idx_nth (shape_now ashape (length a1)) i) as (idx & _ & R & E); eauto.
  assert (P : Forall (fun d => 0 <= d) (shape_now ashape (length a1))).
  { unfold shape_now. pose proof (ok_ne _ OK) as Ne. fold ashape in Ne. destruct ashape as [|d t] eqn:Ea; [constructor|].
    destruct (wf_tl A WF d t Ea) as [Wt Pt]. constructor; [|eapply Forall_impl; [|exact Wt]; cbn; lia].
    destruct WF as (_ & _ & W3). fold ashape in W3. rewrite Ea in W3. destruct (Z.ltb_spec d 0); [|lia]. apply Z.div_pos; lia. }
  apply all_idx_len in P. lia.
Qed.

Lemma mode1 : exists d3, b1_prop strict dbg A konst pa us d2 = Ok d3 /\ DIx d3 /\ a_dat d3 = map Some v1.
Proof.
  unfold b1_prop. rewrite Epa. destruct split_us as (us1 & us2 & Eus & E2 & H1).
  assert (I0 : DIx d2).
  { constructor; [repeat split| | |]; rewrite Df.
    - rewrite rp_nil, Dd, map_map. cbn [dfl]. now rewrite map_id.
    - constructor.
    - constructor. }
  assert (Fu0 : full d2) by (unfold full; rewrite Dd; apply Forall_map; apply Forall_forall; intros; discriminate).
  assert (L0 : length (a_dat d2) = length v0) by (rewrite Dd; apply map_length).
  assert (Nd : NoDup (map (@uidx Z) us1)).
  { apply sorted_nodup in Us. rewrite Eus, map_app in Us. apply NoDup_app_left in Us. exact Us. }
  destruct (fill_changes us1 d2 us2 H1 Nd I0 Fu0 L0) as (d3 & Ed3 & I3 & F3 & L3 & W3 & R3). rewrite <- Eus in Ed3.
  (* after fills, placements and removals *)
  assert (Hmid : exists U d4, b1_fill strict dbg A a1 us d2 = Ok (fst d4, U) /\ b1_remove strict dbg A a1 (rev us) (fst d4) = Ok (snd d4) /\
     DIx (snd d4) /\ full (snd d4) /\ length (a_dat (snd d4)) = length v1 /\
     (forall j, (j < n1)%nat -> In j U \/ (~ In j (map (@uidx Z) us) /\ (j < n0)%nat)) /\
     (forall j, (j < n1)%nat -> In j U -> In j (map (@uidx Z) us)) /\
     (forall j sub, (j < n1)%nat -> In j U -> in_range sl sub -> nth_error (a_dat (snd d4)) (pos A j sub) = val j sub) /\
     (forall j sub, (j < n1)%nat -> ~ In j U -> in_range sl sub -> nth_error (a_dat (snd d4)) (pos A j sub) = nth_error (map Some v0) (pos A j sub))).
  { assert (Hrev1 : forall d, b1_remove strict dbg A a1 (rev us1) d = Ok d).
    { intros d. destruct (rev us1) as [|u t] eqn:Er; [reflexivity|]. cbn [b1_remove]. rewrite Forall_forall in H1.
      destruct (H1 u) as (_ & -> & _); [apply in_rev; rewrite Er; now left|reflexivity]. }
    destruct (Nat.le_gt_cases n0 n1) as [Hle|Hgt].
    - replace (Nat.min n0 n1) with n0 in E2 by lia. replace (Nat.max n0 n1) with n1 in E2 by lia.
      assert (Hp : Forall (fun u => uold u = None /\ uval u = Some (contrib (strs A) arrs1 (uidx u))) us2).
      { apply Forall_forall. intros u Hu. destruct (Uv u) as (Q1 & Q2 & _); [rewrite Eus; apply in_or_app; now right|].
        assert (Hi : In (uidx u) (seq n0 (n1 - n0))) by (rewrite <- E2; now apply in_map). apply in_seq in Hi.
        rewrite off0_nth in Q1. rewrite off1_nth in Q2. destruct (Nat.ltb_spec (uidx u) n0), (Nat.ltb_spec (uidx u) n1); try lia. auto. }
      destruct (fill_places (n1 - n0) n0 us2 d3 E2) as (d4 & Ed4 & I4 & F4 & L4 & R4 & W4); auto; try lia.
      { destruct (Nat.eq_dec n0 n1) as [->|Hne]; [left; lia|right; now apply not_fixed]. }
      { now rewrite L3, lv0. }
      exists (map (@uidx Z) us), (d4, d4). cbn [fst snd]. rewrite Ed3, Ed4. cbn [rbind fst snd]. rewrite <- map_app, <- Eus.
      split; [reflexivity|]. split; [|split; [exact I4|split; [exact F4|split; [exact L4|]]]].
      + rewrite Eus, rev_app_distr. destruct (rev us2) as [|u t] eqn:Er; [apply Hrev1|]. cbn [app b1_remove].
        rewrite Forall_forall in Hp. destruct (Hp u) as (_ & ->); [apply in_rev; rewrite Er; now left|reflexivity].
      + split; [|split; [auto|split]].
        * intros j Hj. destruct (in_dec Nat.eq_dec j (map (@uidx Z) us)) as [|Hn]; [now left|]. right. split; [exact Hn|].
          destruct (Nat.lt_ge_cases j n0); [auto|]. exfalso. apply Hn. rewrite Eus, map_app, E2. apply in_or_app. right. apply in_seq. lia.
        * intros j sub Hj Hu Hs. rewrite Eus, map_app, E2 in Hu. apply in_app_or in Hu. destruct Hu as [Hu|Hu].
          -- assert (Hj0 : (j < n0)%nat) by (apply in_map_iff in Hu; destruct Hu as (u & <- & Hu); rewrite Forall_forall in H1; apply H1; exact Hu).
             rewrite R4; [apply W3; auto|]. rewrite L3, lv0. pose proof (pos_b1_lt n0 j sub N0 Hj0 Hs). nia.
          -- apply in_seq in Hu. apply W4; [lia|exact Hs].
        * intros j sub Hj Hu Hs. rewrite Eus, map_app, E2 in Hu. assert (Hj0 : (j < n0)%nat).
          { destruct (Nat.lt_ge_cases j n0); [auto|]. exfalso. apply Hu. apply in_or_app. right. apply in_seq. lia. }
          rewrite R4 by (rewrite L3, lv0; pose proof (pos_b1_lt n0 j sub N0 Hj0 Hs); nia). rewrite <- Dd. apply R3; auto.
          intros Hc. apply Hu. apply in_or_app. now left.
    - replace (Nat.min n0 n1) with n1 in E2 by lia. replace (Nat.max n0 n1) with n0 in E2 by lia.
      assert (Hp : Forall (fun u => uval u = None) us2).
      { apply Forall_forall. intros u Hu. destruct (Uv u) as (Q1 & Q2 & _); [rewrite Eus; apply in_or_app; now right|].
        assert (Hi : In (uidx u) (seq n1 (n0 - n1))) by (rewrite <- E2; now apply in_map). apply in_seq in Hi.
        rewrite off1_nth in Q2. destruct (Nat.ltb_spec (uidx u) n1); try lia. auto. }
      destruct (fill_removes (n0 - n1) us2 d3 (rev us1) E2) as (d4 & Ed4 & I4 & F4 & L4); auto; try lia.
      { right. split; [apply not_fixed; lia|apply not_strict; lia]. }
      { rewrite L3, lv0. f_equal. lia. }
      assert (L4' : length (a_dat d4) = length v1) by (rewrite L4, firstn_length, L3, lv0, lv1; nia).
      assert (Epos : forall j sub, (j < n1)%nat -> in_range sl sub -> nth_error (a_dat d4) (pos A j sub) = nth_error (a_dat d3) (pos A j sub)).
      { intros j sub Hj Hs. rewrite L4, nth_error_firstn. pose proof (pos_b1_lt n1 j sub N1 Hj Hs). destruct (Nat.ltb_spec (pos A j sub) (n1 * P1)); [reflexivity|nia]. }
      exists (map (@uidx Z) us1), (d3, d4). cbn [fst snd]. rewrite Ed3.
      assert (Eb : b1_fill strict dbg A a1 us2 d3 = Ok (d3, [])).
      { destruct us2 as [|u t]; [reflexivity|]. apply Forall_inv in Hp. cbn [b1_fill]. rewrite Hp. now destruct (uold u). }
      rewrite Eb. cbn [rbind fst snd]. rewrite app_nil_r.
      split; [reflexivity|]. split; [|split; [exact I4|split; [exact F4|split; [exact L4'|]]]].
      + rewrite Eus, rev_app_distr, Ed4. apply Hrev1.
      + split; [|split; [|split]].
        * intros j Hj. destruct (in_dec Nat.eq_dec j (map (@uidx Z) us1)) as [|Hn]; [now left|]. right. split; [|lia].
          intros Hc. rewrite Eus, map_app, E2 in Hc. apply in_app_or in Hc. destruct Hc as [|Hc]; [auto|]. apply in_seq in Hc. lia.
        * intros j Hj Hu. rewrite Eus, map_app. apply in_or_app. now left.
        * intros j sub Hj Hu Hs. rewrite Epos by auto. apply W3; auto.
        * intros j sub Hj Hu Hs. rewrite Epos by auto. rewrite <- Dd. apply R3; auto. lia. }
  destruct Hmid as (U & (d4, d5) & -> & Er & I5 & F5 & L5 & HU1 & HU2 & W5 & R5). cbn [fst snd rbind] in *. rewrite Er. cbn [rbind].
  (* entries that are not updated keep their offset *)
  assert (Hkeep : forall j, (j < n1)%nat -> ~ In j U -> (j < n0)%nat /\ contrib (strs A) arrs1 j = contrib (strs A) arrs0 j).
  { intros j Hj Hu. destruct (HU1 j Hj) as [|[Hn Hj0]]; [contradiction|]. split; [exact Hj0|].
    destruct (Z.eq_dec (contrib (strs A) arrs0 j) (contrib (strs A) arrs1 j)) as [|Hne]; [auto|]. exfalso. apply Hn. apply Ua. rewrite off0_nth, off1_nth.
    destruct (Nat.ltb_spec j n0), (Nat.ltb_spec j n1); try lia. congruence. }
  assert (Hold : forall j sub, (j < n1)%nat -> ~ In j U -> in_range sl sub -> nth_error (a_dat d5) (pos A j sub) = Some (nth_error a0 (src A arrs1 j sub))).
  { intros j sub Hj Hu Hs. rewrite R5 by auto. destruct (Hkeep j Hj Hu) as [Hj0 Ec]. rewrite nth_error_map.
    assert (Hs' : in_range (sls A (length a0)) sub) by now rewrite Esl.
    rewrite (g_val _ _ _ _ _ _ _ G0) by auto. unfold src, srcz. rewrite Ec. fold (srcz A arrs0 j sub).
    destruct (good_src A OK WF m _ _ _ _ _ j sub G0 Hj0 Hs' F0) as (cs & _ & _ & Bd & _).
    destruct (@nth_error_get _ (Z.to_nat (srcz A arrs0 j sub)) a0) as [y Ey]; [lia|]. now rewrite Ey. }
  assert (Hfin : exists d6, rfold (par_update dbg A konst false U (length a1) a1) d5 (pdiff pa) = Ok d6 /\ DIx d6 /\ length (a_dat d6) = length v1 /\
     forall j sub, (j < n1)%nat -> in_range sl sub -> nth_error (a_dat d6) (pos A j sub) = val j sub).
  { assert (Hk : konst = true \/ konst = false) by (destruct konst; auto). destruct Hk as [Ek|Ek].
    - rewrite (Kpa Ek) in *. cbn [rfold]. rewrite rp_nil in Rpa. injection Rpa as Ea. exists d5. split; [reflexivity|]. split; [exact I5|]. split; [exact L5|].
      intros j sub Hj Hs. destruct (in_dec Nat.eq_dec j U); [auto|]. rewrite Hold by auto. now rewrite Ea.
    - destruct (par_loop_ok dbg A konst v0 M fixed false U (length a1) a1 n1 (all_idx sl) (pos A) (src A arrs1) off1) with (d0 := d2) (start := a_dat d5) (us := pdiff pa) (l := a0) (l' := a1) (d := d5)
        as (d6 & E6 & P6).
      + unfold off1. now rewrite map_length, seq_length.
      + exact Ek.
      + intros i Hi. destruct (idx_pick i Hi) as (idx & Ri & Ei).
        exists (offset (strs A) (pick true spec idx)), (offset (SO A) (pick false spec idx)).
        assert (Rs : in_range sl (pick false spec idx)) by (rewrite <- (Esl (length a1)); apply in_range_pickk; exact Ri).
        assert (Esp : supported A konst) by exact SUP. unfold supported in Esp. rewrite B, Ek in Esp.
        assert (Em : mouts A spec 0 false = SO A).
        { apply (mouts_SO A OK B). destruct Esp as [Esp|[_ [Esp|Esp]]]; [now left|discriminate|now right]. }
        split; [|split].
        * rewrite (cur_now A WF) by exact WF. rewrite <- (now_wt A OK WF (length a1)).
          pose proof (mapped_eq A (ad_spec A) (shape_now (ad_shape A) (length a1)) idx 0 false 0 (0, 0) (now_len A OK WF _) Ri ltac:(lia)) as Q.
          fold ashape in Q |- *. rewrite Ei in Q. rewrite Z.mul_0_l, Z.add_0_l in Q. rewrite Q. cbn [fst snd]. fold spec. rewrite Em.
          unfold strs. rewrite <- (now_wt A OK WF (length a1)). reflexivity.
        * intros j Hj. pose proof Hj as Hj'. rewrite off1_nth in Hj'. destruct (Nat.ltb_spec j n1) as [Hjn|]; [|discriminate]. injection Hj' as Hj'.
          exists (pick false spec idx). split; [apply in_all_idx; exact Rs|]. split; [symmetry; apply (pos_val A OK konst SUP WF n1 0); auto; now rewrite Esl|].
          unfold src, srcz. rewrite Hj'. rewrite <- (Nat2Z.id i), <- Ei. f_equal.
          rewrite rank_offset by (apply in_range_len; exact Ri). unfold strs, SS. unfold ashape. rewrite (now_wt A OK WF).
          rewrite <- (merge_pick spec idx) at 3 by (rewrite <- (in_range_len _ _ Ri); apply (now_len A OK WF)). fold spec. symmetry. apply offset_merge.
          -- rewrite (ok_istr _ OK), wt_len. symmetry. apply (ok_len _ OK).
          -- apply pick_len. rewrite (ok_istr _ OK), wt_len, <- (in_range_len _ _ Ri). unfold shape_now, ashape. destruct (ad_shape A); reflexivity.
          -- apply pick_len. rewrite (ok_istr _ OK), wt_len, <- (in_range_len _ _ Ri). unfold shape_now, ashape. destruct (ad_shape A); reflexivity.
        * intros j sub Hj Hs Es. apply in_all_idx in Hs. assert (Hs' : in_range (sls A (length a1)) sub) by now rewrite Esl.
          destruct (good_src A OK WF m _ _ _ _ _ j sub G1 Hj Hs' F1) as (cs & Q1 & Q2 & Q3 & Q4 & Q5).
          assert (Eid : merge spec cs sub = idx).
          { apply (rank_inj (shape_now ashape (length a1))); [exact Q2|exact Ri|]. unfold src in Es. fold spec ashape in Q1. lia. }
          assert (Ecs : cs = pick true spec idx).
          { rewrite <- Eid. symmetry. apply (pick_merge_true spec (ad_istr A)).
            - rewrite (ok_istr _ OK), wt_len. symmetry. apply (ok_len _ OK).
            - exact Q5. }
          assert (Esub : sub = pick false spec idx).
          { rewrite <- Eid. symmetry. apply (pick_merge_false spec (shape_now ashape (length a1))).
            - apply (now_len A OK WF).
            - symmetry. apply in_range_len. exact Hs'. }
          split.
          -- rewrite off1_nth. destruct (Nat.ltb_spec j n1); [|lia]. now rewrite Q4, Ecs.
          -- rewrite <- Esub. apply (pos_val A OK konst SUP WF n1 0); auto. now rewrite Esl.
      + intros j sub j' sub' Hj Hj' Hs Hs'. apply in_all_idx in Hs, Hs'. apply (pos_inj A OK konst SUP WF n1 0); auto; now rewrite Esl.
      + intros j sub Hj Hs. apply in_all_idx in Hs. assert (Hs' : in_range (sls A (length a1)) sub) by now rewrite Esl.
        destruct (good_src A OK WF m _ _ _ _ _ j sub G1 Hj Hs' F1) as (cs & _ & _ & Q3 & _). unfold src. lia.
      + constructor.
        * exact I5.
        * reflexivity.
        * intros j sub [Hj Hu] Hs. apply in_all_idx in Hs. apply Hold; auto.
        * auto.
      + exact Do.
      + exact Dr.
      + rewrite L5. unfold M. lia.
      + exact Rpa.
      + intros _. destruct (dynamic ashape) eqn:Ed.
        * assert (Hh : hd false spec = true).
          { pose proof SUP as Esp. unfold supported in Esp. rewrite B in Esp. fold ashape spec in Esp. rewrite Ed in Esp. destruct Esp as [|[? _]]; [auto|discriminate]. }
          eapply Forall_impl; [|apply (Cpa eq_refl Hh)]. intros u Hu (j & sub & Hj & Hs & Es). apply Hu. apply in_all_idx in Hs.
          assert (Hs' : in_range (sls A (length a1)) sub) by now rewrite Esl.
          pose proof (g_m _ _ _ _ _ _ _ G1 Ed Hh j sub Hj Hs') as Q. destruct (good_src A OK WF m _ _ _ _ _ j sub G1 Hj Hs' F1) as (cs & _ & _ & Q3 & _).
          unfold src in Es. fold ashape in Q. lia.
        * eapply Forall_impl; [|apply (Xpa eq_refl)]. auto.
      + exists d6. split; [exact E6|]. destruct P6 as [P1' P2' P3' P4']. split; [exact P1'|]. split; [congruence|].
        intros j sub Hj Hs. destruct (in_dec Nat.eq_dec j U) as [Hu|Hu].
        * rewrite P4'; [apply W5; auto|]. intros j' sub' [Hj' Hu'] Hs' Ep. apply in_all_idx in Hs'.
          apply (pos_inj A OK konst SUP WF n1 0) in Ep; auto; [|now rewrite Esl|now rewrite Esl]. destruct Ep as [-> _]. contradiction.
        * apply P3'; [split; auto|]. apply in_all_idx. exact Hs. }
  destruct Hfin as (d6 & E6 & I6 & L6 & W6). exists d6. split; [exact E6|]. split; [exact I6|].
  apply (vals_eq A OK konst SUP WF m _ v1 a1 arrs1 n1 _ G1 N1 L6). intros j sub Hj Hs. rewrite Esl in Hs. auto.
Qed.
End WithD.
End Mode1.
