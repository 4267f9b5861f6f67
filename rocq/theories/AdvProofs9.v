(** Propagation when the axis of the index arrays is in the place of the first array. *)
From Coq Require Import Sorted.
From Verif Require Import Base SliceModel ShapeModel ShapeSpec ShapeProofs StateDataModel StateDataSpec Replay NodeSpec BinaryModel Num QuadModel PermModel PermSpec PermProofs DedupModel AdvModel AdvSpec AdvProofs AdvProofs2 AdvProofs3 AdvProofs4 AdvProofs5 AdvProofs6 AdvProofs7 AdvProofs8.
Local Open Scope Z_scope.

Lemma in_range_inv x sh i : in_range (x :: sh) i -> exists r q, i = r :: q /\ 0 <= r < x /\ in_range sh q.
Proof. intros H; inversion H; subst; eauto 10. Qed.

Lemma row_lt P r k i mr lim : 0 < P -> 0 <= k -> r * P + k = Z.of_nat i -> (i < lim)%nat -> Z.of_nat lim = mr * P -> r < mr.
Proof. nia. Qed.
Lemma row_in P r k z mr lim : 0 < P -> 0 <= r -> 0 <= k < P -> z = r * P + k -> r < mr -> Z.of_nat lim = mr * P -> (Z.to_nat z < lim)%nat.
Proof. nia. Qed.

Section Mode2.
Variables strict dbg : bool.
Variable A : adv.
Hypothesis OK : adv_ok A.
Variable konst : bool.
Hypothesis SUP : supported A konst.
Hypothesis WF : wf_shape (ad_shape A).
Variable m : nat.
Let spec := ad_spec A.
Let ashape := ad_shape A.
Hypothesis B : ad_b1 A = false.
Variables (d : Z) (t : list Z) (s : list bool).
Hypothesis Eash : ashape = d :: t.
Hypothesis Espec : spec = false :: s.
Let sl1 := pick false s t.
Let P1 := length (all_idx sl1).
Definition rows (la : nat) : Z := if d <? 0 then Z.of_nat la / prod t else d.

Lemma Esl2 la : sls A la = rows la :: sl1.
Proof.
  destruct (b2_sls A OK WF la B) as (d' & t' & s' & E1 & E2 & _ & E4). fold ashape in E1. fold spec in E2. rewrite Eash in E1. rewrite Espec in E2. injection E1 as <- <-. injection E2 as <-. exact E4.
Qed.
Lemma t_pos : 0 < prod t.
Proof. apply (wf_tl A WF d t). exact Eash. Qed.
Lemma P1_prod2 : Z.of_nat P1 = prod sl1.
Proof. apply all_idx_len. pose proof (sls_nonneg A WF 0) as H. rewrite Esl2 in H. eapply Forall_inv_tail. exact H. Qed.
Lemma rows_len (a : list num) : fits ashape a -> rows (length a) * prod t = Z.of_nat (length a) /\ 0 <= rows (length a).
Proof.
  intros F. pose proof (fits_prod A OK WF a F) as E. fold ashape in E. rewrite Eash in E. unfold shape_now in E. cbn [prod] in E. fold (rows (length a)) in E. split; [exact E|].
  pose proof t_pos. nia.
Qed.

Lemma in_sls2 la r q : in_range (sls A la) (r :: q) <-> 0 <= r < rows la /\ in_range sl1 q.
Proof. rewrite Esl2. split; [intros H; inversion H; subst; auto|intros [H1 H2]; constructor; auto]. Qed.
Lemma sub_cons la sub : in_range (sls A la) sub -> exists r q, sub = r :: q /\ 0 <= r < rows la /\ in_range sl1 q.
Proof. rewrite Esl2. intros H; inversion H; subst. eauto 10. Qed.

Lemma axis_pts back (a : list num) ax off j :
  visits A back (tl (ad_spec A)) (tl (cur_shape A a)) (tl (ad_istr A)) 1 1 (ax * hd 0 (ad_ostr A) + Z.of_nat j * ad_ss A) (ax * hd 0 (ad_istr A) + off) =
  map (fun q => (Z.of_nat j * ad_ss A + offset (SO A) (ax :: q), off + offset (SS A) (ax :: q))) (order back sl1).
Proof.
  assert (Ei : exists s0 is', ad_istr A = s0 :: is' /\ length is' = length t).
  { rewrite (ok_istr _ OK). fold ashape. rewrite Eash, wt_cons. eexists _, _. split; [reflexivity|]. apply wt_len. }
  destruct Ei as (s0 & is' & Ei & Li).
  assert (Ls : length s = length t).
  { pose proof (ok_len _ OK) as L. fold spec ashape in L. rewrite Espec, Eash in L. cbn in L. lia. }
  assert (Es : tl (ad_spec A) = s) by (fold spec; now rewrite Espec).
  assert (Ec : tl (cur_shape A a) = t) by (rewrite (cur_now A WF) by exact WF; fold ashape; rewrite Eash; reflexivity).
  rewrite Es, Ec, Ei. cbn [tl hd]. rewrite visits_eq by lia. unfold sl1. apply map_ext. intros q.
  assert (ES : SS A = s0 :: pick false s is') by (unfold SS; fold spec; rewrite Espec, Ei; reflexivity).
  assert (EO : SO A = hd 0 (ad_ostr A) :: souts (ad_b1 A) (ad_first A) (ad_ostr A) s 1 1).
  { unfold SO. fold spec. rewrite Espec, B. cbn [souts]. f_equal. now destruct (ad_ostr A). }
  rewrite ES, EO. cbn [offset]. f_equal; lia.
Qed.

Variables (inp0 : list (list num)) (v0 a0 : list num) (arrs0 : list (list num)).
Variables (inp1 : list (list num)) (v1 a1 : list num) (arrs1 : list (list num)) (n : nat).
Hypothesis G0 : Good A m inp0 v0 a0 arrs0 n.
Hypothesis G1 : Good A m inp1 v1 a1 arrs1 n.
Hypothesis N1 : nfit A n.
Hypothesis F0 : fits ashape a0.
Hypothesis F1 : fits ashape a1.
Let M := Nat.max (length v0) (length v1).
Let fixed := dynamic (ad_oshape A) = false.
Let R0 := Z.to_nat (rows (length a0)).
Let R1 := Z.to_nat (rows (length a1)).

Lemma R0z : Z.of_nat R0 = rows (length a0).
Proof. unfold R0. pose proof (rows_len a0 F0). lia. Qed.
Lemma R1z : Z.of_nat R1 = rows (length a1).
Proof. unfold R1. pose proof (rows_len a1 F1). lia. Qed.
Lemma lw0 : length v0 = (R0 * n * P1)%nat.
Proof. pose proof (g_vlen _ _ _ _ _ _ _ G0) as E. rewrite Esl2 in E. cbn [prod] in E. rewrite <- P1_prod2, <- R0z in E. nia. Qed.
Lemma lw1 : length v1 = (R1 * n * P1)%nat.
Proof. pose proof (g_vlen _ _ _ _ _ _ _ G1) as E. rewrite Esl2 in E. cbn [prod] in E. rewrite <- P1_prod2, <- R1z in E. nia. Qed.
Lemma rows_dyn : R0 <> R1 -> dynamic ashape = true.
Proof. intros H. rewrite Eash. cbn [dynamic]. destruct (Z.ltb_spec d 0) as [|Hd]; [reflexivity|]. exfalso. apply H. unfold R0, R1, rows. destruct (Z.ltb_spec d 0); [lia|reflexivity]. Qed.
Lemma not_fixed2 : R0 <> R1 -> ~ fixed.
Proof.
  intros H Hf. apply rows_dyn in H. unfold fixed in Hf. rewrite (ok_oshape _ OK), B in Hf. destruct (b2_facts A OK B) as (_ & _ & _ & Hl).
  fold spec ashape in Hf, Hl. rewrite Eash in Hf, H. rewrite Espec in Hf, Hl. cbn [pick Bool.eqb] in Hf. destruct (lead (false :: s)) as [|l] eqn:El; [lia|]. rewrite ins_S in Hf. cbn [dynamic] in *. congruence.
Qed.
Hypothesis SAFE : strict = true -> dynamic ashape = false.
Lemma not_strict2 : R0 <> R1 -> strict = false.
Proof. intros H. apply rows_dyn in H. destruct strict; [specialize (SAFE eq_refl); congruence|reflexivity]. Qed.
Lemma first_one : R0 <> R1 -> lead spec = 1%nat.
Proof. intros H. apply rows_dyn in H. unfold supported in SUP. rewrite B in SUP. fold ashape in SUP. rewrite H, (ok_first _ OK) in SUP. destruct SUP; [discriminate|auto]. Qed.

Lemma pos_b2 la j r q : lead spec = 1%nat -> (j < n)%nat -> in_range (sls A la) (Z.of_nat r :: q) ->
  Z.of_nat (pos A j (Z.of_nat r :: q)) = Z.of_nat ((r * n + j) * P1) + rank sl1 q.
Proof.
  intros Hl Hj Hs. destruct (pos_rank A OK konst SUP WF n la j _ N1 Hj Hs) as [-> _]. unfold cK. rewrite B. fold spec. rewrite Hl, Esl2.
  change (rank (rows la :: Z.of_nat n :: sl1) (Z.of_nat r :: Z.of_nat j :: q) = Z.of_nat ((r * n + j) * P1) + rank sl1 q).
  rewrite Esl2 in Hs. assert (Hq : in_range sl1 q) by (inversion Hs; auto). pose proof (in_range_len _ _ Hq).
  rewrite !rank_cons by (cbn [length]; lia). cbn [prod]. rewrite <- P1_prod2. nia.
Qed.

Notation val j sub := (Some (nth_error a1 (src A arrs1 j sub))).
Let off0 := map (contrib (strs A) arrs0) (seq 0 n).
Let off1 := map (contrib (strs A) arrs1) (seq 0 n).
Lemma o0_nth i : nth_error off0 i = if (i <? n)%nat then Some (contrib (strs A) arrs0 i) else None.
Proof. unfold off0. rewrite nth_error_map, nth_error_seq. destruct (i <? n)%nat; reflexivity. Qed.
Lemma o1_nth i : nth_error off1 i = if (i <? n)%nat then Some (contrib (strs A) arrs1 i) else None.
Proof. unfold off1. rewrite nth_error_map, nth_error_seq. destruct (i <? n)%nat; reflexivity. Qed.

Section WithD.
Variable d2 : gdata.
Hypothesis Do : a_off d2 = off1.
Notation DIx := (DI v0 M fixed d2).

Lemma get_off d' j : DIx d' -> (j < n)%nat -> rget (a_off d') j = Ok (contrib (strs A) arrs1 j).
Proof.
  intros I Hj. destruct (di_same _ _ _ _ _ I) as (_ & _ & _ & E & _). unfold rget. rewrite E, Do, o1_nth. destruct (Nat.ltb_spec j n); [reflexivity|lia].
Qed.
Lemma src_in j sub : (j < n)%nat -> in_range (sls A (length a1)) sub -> 0 <= srcz A arrs1 j sub < Z.of_nat (length a1).
Proof. intros Hj Hs. destruct (good_src A OK WF m _ _ _ _ _ j sub G1 Hj Hs F1) as (cs & _ & _ & Bd & _). exact Bd. Qed.

(** Placing. *)
Lemma place_block d' ax j : (j < n)%nat -> (ax < R1)%nat -> lead spec = 1%nat -> DIx d' -> full d' -> ~ fixed -> length (a_dat d') = ((ax * n + j) * P1)%nat ->
  exists d'', offs_fill strict dbg A FPlace a1 ax d' j = Ok d'' /\ DIx d'' /\ full d'' /\
    length (a_dat d'') = ((ax * n + Datatypes.S j) * P1)%nat /\ (forall p, (p < length (a_dat d'))%nat -> nth_error (a_dat d'') p = nth_error (a_dat d') p) /\
    (forall q, in_range sl1 q -> nth_error (a_dat d'') (pos A j (Z.of_nat ax :: q)) = val j (Z.of_nat ax :: q)).
Proof.
  intros Hj Hax Hl I F X L. unfold offs_fill. rewrite (get_off d' j I Hj). cbn [rbind]. unfold fill_axis0. cbn [is_back]. rewrite axis_pts. unfold order.
  set (pts := map _ (all_idx sl1)).
  assert (Hin : forall q, in_range sl1 q -> in_range (sls A (length a1)) (Z.of_nat ax :: q)) by (intros q Hq; apply in_sls2; rewrite <- R1z; split; [lia|exact Hq]).
  assert (Hpts : pts = map (fun q => (Z.of_nat ((ax * n + j) * P1) + rank sl1 q, srcz A arrs1 j (Z.of_nat ax :: q))) (all_idx sl1)).
  { apply map_ext_in. intros q Hs. apply in_all_idx in Hs. f_equal. rewrite <- (pos_b2 (length a1)) by auto. symmetry. apply (pos_val A OK konst SUP WF n (length a1)); auto. }
  assert (Lp : length pts = P1) by (unfold pts; now rewrite map_length).
  destruct (fill_place_ok strict dbg v0 M fixed a1 d2 pts d' I F X) as (d'' & -> & I' & F' & E').
  - rewrite Lp, L. unfold M. rewrite lw1. assert ((ax * n + j) * P1 + P1 <= R1 * n * P1)%nat; [|lia]. assert (ax * n + j + 1 <= R1 * n)%nat by nia. nia.
  - rewrite Lp, L, Hpts, map_map. cbn [fst]. apply rank_seq_at.
  - rewrite Hpts. apply Forall_map. apply Forall_forall. intros q Hs. apply in_all_idx in Hs. cbn [snd]. apply src_in; auto.
  - exists d''. split; [reflexivity|]. split; [exact I'|]. split; [exact F'|]. rewrite E'. split; [|split].
    + rewrite app_length, map_length, Lp, L. nia.
    + intros p Hp. now rewrite nth_error_app1.
    + intros q Hq. pose proof (pos_b2 (length a1) j ax q Hl Hj (Hin q Hq)) as Ep. pose proof (rank_bounds _ _ Hq).
      rewrite nth_error_app2 by lia. replace (pos A j (Z.of_nat ax :: q) - length (a_dat d'))%nat with (Z.to_nat (rank sl1 q)) by lia.
      rewrite Hpts, map_map. cbn [snd]. rewrite nth_error_map, nth_all_idx by exact Hq. reflexivity.
Qed.

Lemma pos_in_block la j r q : lead spec = 1%nat -> (j < n)%nat -> in_range (sls A la) (Z.of_nat r :: q) ->
  ((r * n + j) * P1 <= pos A j (Z.of_nat r :: q) < (r * n + Datatypes.S j) * P1)%nat.
Proof.
  intros Hl Hj Hs. pose proof (pos_b2 la j r q Hl Hj Hs) as E. apply in_sls2 in Hs. destruct Hs as [_ Hq]. pose proof (rank_bounds _ _ Hq) as Bd. rewrite <- P1_prod2 in Bd.
  replace ((r * n + Datatypes.S j) * P1)%nat with ((r * n + j) * P1 + P1)%nat by nia. lia.
Qed.

Lemma place_axis ax c : forall k d', (k + c)%nat = n -> (ax < R1)%nat -> lead spec = 1%nat -> DIx d' -> full d' -> ~ fixed -> length (a_dat d') = ((ax * n + k) * P1)%nat ->
  exists d'', rfold (offs_fill strict dbg A FPlace a1 ax) d' (seq k c) = Ok d'' /\ DIx d'' /\ full d'' /\
    length (a_dat d'') = (Datatypes.S ax * n * P1)%nat /\ (forall p, (p < length (a_dat d'))%nat -> nth_error (a_dat d'') p = nth_error (a_dat d') p) /\
    (forall j q, (k <= j < n)%nat -> in_range sl1 q -> nth_error (a_dat d'') (pos A j (Z.of_nat ax :: q)) = val j (Z.of_nat ax :: q)).
Proof.
  induction c as [|c IH]; intros k d' Hk Hax Hl I F X L.
  - exists d'. cbn [seq rfold]. split; [reflexivity|]. split; [exact I|]. split; [exact F|]. split; [rewrite L; nia|]. split; [auto|intros; lia].
  - cbn [seq rfold]. destruct (place_block d' ax k) as (d1 & -> & I1 & F1' & L1 & Rd & W); auto; [lia|]. cbn [rbind].
    destruct (IH (Datatypes.S k) d1) as (d'' & -> & I2 & F2 & L2 & Rd2 & W2); auto; [lia|].
    exists d''. split; [reflexivity|]. split; [exact I2|]. split; [exact F2|]. split; [exact L2|]. split.
    + intros p Hp. rewrite Rd2; [auto|]. rewrite L1. rewrite L in Hp. nia.
    + intros j q Hj Hq. destruct (Nat.eq_dec j k) as [->|]; [|apply W2; auto; lia].
      rewrite Rd2; [apply W; exact Hq|]. rewrite L1. apply (pos_in_block (length a1)); auto; [lia|]. apply in_sls2. rewrite <- R1z. split; [lia|exact Hq].
Qed.

Lemma place_axes c : forall k d', (k + c)%nat = R1 -> (c = 0%nat \/ (~ fixed /\ lead spec = 1%nat)) -> DIx d' -> full d' -> length (a_dat d') = (k * n * P1)%nat ->
  exists d'', rfold (fun d ax => rfold (offs_fill strict dbg A FPlace a1 ax) d (seq 0 n)) d' (seq k c) = Ok d'' /\ DIx d'' /\ full d'' /\
    length (a_dat d'') = length v1 /\ (forall p, (p < length (a_dat d'))%nat -> nth_error (a_dat d'') p = nth_error (a_dat d') p) /\
    (forall j ax q, (j < n)%nat -> (k <= ax < R1)%nat -> in_range sl1 q -> nth_error (a_dat d'') (pos A j (Z.of_nat ax :: q)) = val j (Z.of_nat ax :: q)).
Proof.
  induction c as [|c IH]; intros k d' Hk X I F L.
  - exists d'. cbn [seq rfold]. split; [reflexivity|]. split; [exact I|]. split; [exact F|]. split; [rewrite L, lw1; nia|]. split; [auto|intros; lia].
  - destruct X as [X|[X Hl]]; [discriminate|]. cbn [seq rfold].
    destruct (place_axis k n 0 d') as (d1 & -> & I1 & F1' & L1 & Rd & W); auto; [lia|rewrite L; nia|]. cbn [rbind].
    destruct (IH (Datatypes.S k) d1) as (d'' & -> & I2 & F2 & L2 & Rd2 & W2); auto; [lia|].
    exists d''. split; [reflexivity|]. split; [exact I2|]. split; [exact F2|]. split; [exact L2|]. split.
    + intros p Hp. rewrite Rd2; [auto|]. rewrite L1. rewrite L in Hp. nia.
    + intros j ax q Hj Hax Hq. destruct (Nat.eq_dec ax k) as [->|]; [|apply W2; auto; lia].
      rewrite Rd2; [apply W; auto; lia|]. rewrite L1.
      assert (Hs : in_range (sls A (length a1)) (Z.of_nat k :: q)) by (apply in_sls2; rewrite <- R1z; split; [lia|exact Hq]).
      pose proof (pos_in_block (length a1) j k q Hl Hj Hs) as Q. assert (k * n + Datatypes.S j <= Datatypes.S k * n)%nat by nia. nia.
Qed.

(** Removing. *)
Lemma remove_block d' ax j : strict = false -> (j < n)%nat -> (ax < R0)%nat -> lead spec = 1%nat -> DIx d' -> full d' -> ~ fixed -> length (a_dat d') = ((ax * n + Datatypes.S j) * P1)%nat ->
  exists d'', offs_fill strict dbg A FRemove a1 ax d' j = Ok d'' /\ DIx d'' /\ full d'' /\ a_dat d'' = firstn ((ax * n + j) * P1) (a_dat d').
Proof.
  intros Hst Hj Hax Hl I F X L. unfold offs_fill. rewrite (get_off d' j I Hj). cbn [rbind]. unfold fill_axis0. cbn [is_back]. rewrite axis_pts. unfold order.
  set (pts := map _ (rev (all_idx sl1))).
  assert (Lp : length pts = P1) by (unfold pts; now rewrite map_length, rev_length).
  destruct (fill_remove_ok strict dbg v0 M fixed a1 d2 pts Hst d' I F X) as (d'' & -> & I' & F' & E').
  - rewrite L. unfold M. rewrite lw0. assert (ax * n + Datatypes.S j <= R0 * n)%nat by nia. nia.
  - rewrite Lp, L. nia.
  - rewrite Lp, L. replace ((ax * n + Datatypes.S j) * P1 - P1)%nat with ((ax * n + j) * P1)%nat by nia.
    pose proof (rank_seq_at sl1 ((ax * n + j) * P1)) as Q. fold P1 in Q. rewrite map_rev, <- Q, <- map_rev.
    unfold pts. rewrite map_map. cbn [fst]. apply map_ext_in. intros q Hs. apply in_rev in Hs. apply in_all_idx in Hs.
    assert (Hin : in_range (sls A (length a0)) (Z.of_nat ax :: q)) by (apply in_sls2; rewrite <- R0z; split; [lia|exact Hs]).
    rewrite <- (pos_b2 (length a0)) by auto. symmetry. apply (pos_val A OK konst SUP WF n (length a0)); auto.
  - exists d''. split; [reflexivity|]. split; [exact I'|]. split; [exact F'|]. rewrite E', Lp, L. f_equal. nia.
Qed.
Lemma remove_axis ax c : forall d', strict = false -> (c <= n)%nat -> (ax < R0)%nat -> lead spec = 1%nat -> DIx d' -> full d' -> ~ fixed -> length (a_dat d') = ((ax * n + c) * P1)%nat ->
  exists d'', rfold (offs_fill strict dbg A FRemove a1 ax) d' (rev (seq 0 c)) = Ok d'' /\ DIx d'' /\ full d'' /\ a_dat d'' = firstn (ax * n * P1) (a_dat d').
Proof.
  induction c as [|c IH]; intros d' Hst Hc Hax Hl I F X L.
  - exists d'. cbn [seq rev rfold]. split; [reflexivity|]. split; [exact I|]. split; [exact F|]. rewrite firstn_all2; [reflexivity|]. rewrite L. nia.
  - rewrite seq_S, rev_app_distr. cbn [rev app rfold Nat.add].
    destruct (remove_block d' ax c) as (d1 & -> & I1 & F1' & E1); auto; try lia. cbn [rbind].
    destruct (IH d1) as (d'' & -> & I2 & F2 & E2); auto; try lia.
    { rewrite E1, firstn_length, L. nia. }
    exists d''. split; [reflexivity|]. split; [exact I2|]. split; [exact F2|]. rewrite E2, E1, firstn_firstn. f_equal. nia.
Qed.
Lemma remove_axes c : forall d', (R1 + c <= R0)%nat -> (c = 0%nat \/ (~ fixed /\ strict = false /\ lead spec = 1%nat)) -> DIx d' -> full d' -> length (a_dat d') = ((R1 + c) * n * P1)%nat ->
  exists d'', rfold (fun d ax => rfold (offs_fill strict dbg A FRemove a1 ax) d (rev (seq 0 n))) d' (rev (seq R1 c)) = Ok d'' /\ DIx d'' /\ full d'' /\ a_dat d'' = firstn (R1 * n * P1) (a_dat d').
Proof.
  induction c as [|c IH]; intros d' Hc X I F L.
  - exists d'. cbn [seq rev rfold]. split; [reflexivity|]. split; [exact I|]. split; [exact F|]. rewrite firstn_all2; [reflexivity|]. rewrite L. nia.
  - destruct X as [X|(X & Hst & Hl)]; [discriminate|]. rewrite seq_S, rev_app_distr. cbn [rev app rfold].
    destruct (remove_axis (R1 + c) n d') as (d1 & -> & I1 & F1' & E1); auto; try lia. cbn [rbind].
    destruct (IH d1) as (d'' & -> & I2 & F2 & E2); auto; try lia.
    { rewrite E1, firstn_length, L. nia. }
    exists d''. split; [reflexivity|]. split; [exact I2|]. split; [exact F2|]. rewrite E2, E1, firstn_firstn. f_equal. nia.
Qed.

(** Changing. *)
Lemma change_block d' ax j : (j < n)%nat -> (ax < R1)%nat -> DIx d' -> full d' -> length (a_dat d') = length v1 ->
  exists d'', fill_axis0 strict dbg A FChange a1 (Z.of_nat ax) (contrib (strs A) arrs1 j) j d' = Ok d'' /\ DIx d'' /\ full d'' /\
    length (a_dat d'') = length v1 /\
    (forall q, in_range sl1 q -> nth_error (a_dat d'') (pos A j (Z.of_nat ax :: q)) = val j (Z.of_nat ax :: q)) /\
    (forall j' sub, (j' < n)%nat -> in_range (sls A (length a1)) sub -> j' <> j \/ hd 0 sub <> Z.of_nat ax -> nth_error (a_dat d'') (pos A j' sub) = nth_error (a_dat d') (pos A j' sub)).
Proof.
  intros Hj Hax I F L. unfold fill_axis0. cbn [is_back]. rewrite axis_pts. unfold order. set (pts := map _ (all_idx sl1)).
  assert (Hin : forall q, in_range sl1 q -> in_range (sls A (length a1)) (Z.of_nat ax :: q)) by (intros q Hq; apply in_sls2; rewrite <- R1z; split; [lia|exact Hq]).
  assert (Hpts : pts = map (fun q => (Z.of_nat (pos A j (Z.of_nat ax :: q)), srcz A arrs1 j (Z.of_nat ax :: q))) (all_idx sl1)).
  { apply map_ext_in. intros q Hs. apply in_all_idx in Hs. f_equal. symmetry. apply (pos_val A OK konst SUP WF n (length a1)); auto. }
  destruct (fill_change_ok strict dbg v0 M fixed a1 d2 pts d' I F) as (d'' & -> & I' & F' & L' & W & U).
  - unfold M. lia.
  - rewrite Hpts, map_map. cbn [fst]. apply NoDup_map_on; [|apply NoDup_all_idx].
    intros x y Hx Hy Exy. apply in_all_idx in Hx, Hy. apply Nat2Z.inj in Exy.
    apply (pos_inj A OK konst SUP WF n (length a1)) in Exy; auto. destruct Exy as [_ Exy]. now injection Exy.
  - rewrite Hpts. apply Forall_map. apply Forall_forall. intros q Hs. apply in_all_idx in Hs. cbn [fst snd]. split; [|apply src_in; auto].
    pose proof (pos_lt A OK konst SUP WF n (length a1) j _ N1 Hj (Hin q Hs)) as Q. rewrite <- (g_vlen _ _ _ _ _ _ _ G1) in Q. lia.
  - exists d''. split; [reflexivity|]. split; [exact I'|]. split; [exact F'|]. split; [congruence|]. split.
    + intros q Hq. specialize (W (Z.of_nat (pos A j (Z.of_nat ax :: q)), srcz A arrs1 j (Z.of_nat ax :: q))). cbn [fst snd] in W. rewrite Nat2Z.id in W. apply W.
      rewrite Hpts. apply (in_map (fun q => (Z.of_nat (pos A j (Z.of_nat ax :: q)), srcz A arrs1 j (Z.of_nat ax :: q)))). apply in_all_idx. exact Hq.
    + intros j' sub Hj' Hs Hne. apply U. rewrite Hpts, map_map. cbn [fst]. intros Hc. apply in_map_iff in Hc. destruct Hc as (q & Eq & Hq). apply in_all_idx in Hq.
      apply Nat2Z.inj in Eq. apply (pos_inj A OK konst SUP WF n (length a1)) in Eq; auto. destruct Eq as [-> <-]. cbn [hd] in Hne. destruct Hne; congruence.
Qed.
Lemma change_axes j c : forall k d', (j < n)%nat -> (k + c <= R1)%nat -> DIx d' -> full d' -> length (a_dat d') = length v1 ->
  exists d'', rfold (fun d ax => fill_axis0 strict dbg A FChange a1 (Z.of_nat ax) (contrib (strs A) arrs1 j) j d) d' (seq k c) = Ok d'' /\ DIx d'' /\ full d'' /\
    length (a_dat d'') = length v1 /\
    (forall ax q, (k <= ax < k + c)%nat -> in_range sl1 q -> nth_error (a_dat d'') (pos A j (Z.of_nat ax :: q)) = val j (Z.of_nat ax :: q)) /\
    (forall j' sub, (j' < n)%nat -> in_range (sls A (length a1)) sub -> j' <> j \/ ~ (Z.of_nat k <= hd 0 sub < Z.of_nat (k + c)) -> nth_error (a_dat d'') (pos A j' sub) = nth_error (a_dat d') (pos A j' sub)).
Proof.
  induction c as [|c IH]; intros k d' Hj Hk I F L.
  - exists d'. cbn [seq rfold]. split; [reflexivity|]. split; [exact I|]. split; [exact F|]. split; [exact L|]. split; [intros; lia|auto].
  - cbn [seq rfold]. destruct (change_block d' k j) as (d1 & -> & I1 & F1' & L1 & W & Rd); auto; [lia|]. cbn [rbind].
    destruct (IH (Datatypes.S k) d1) as (d'' & -> & I2 & F2 & L2 & W2 & Rd2); auto; [lia|].
    exists d''. split; [reflexivity|]. split; [exact I2|]. split; [exact F2|]. split; [exact L2|]. split.
    + intros ax q Hax Hq. destruct (Nat.eq_dec ax k) as [->|]; [|apply W2; auto; lia].
      rewrite Rd2; [apply W; exact Hq|exact Hj| |cbn [hd]; right; lia]. apply in_sls2. rewrite <- R1z. split; [lia|exact Hq].
    + intros j' sub Hj' Hs Hne. rewrite Rd2; [apply Rd|..]; auto; destruct Hne as [|Hne]; auto; right; lia.
Qed.

Lemma change_all us : forall d', (Nat.min R1 R0 <= R1)%nat ->
  Forall (fun u => uold u <> None /\ uval u = Some (contrib (strs A) arrs1 (uidx u)) /\ (uidx u < n)%nat) us ->
  DIx d' -> full d' -> length (a_dat d') = length v1 ->
  exists d'', rfold (fun d u => chk dbg (match uold u, uval u with Some _, Some _ => true | _, _ => false end || (Nat.min R1 R0 =? 0)%nat)
                 (match uval u with
                  | Some v => rfold (fun d ax => fill_axis0 strict dbg A FChange a1 (Z.of_nat ax) v (uidx u) d) d (seq 0 (Nat.min R1 R0))
                  | None => if (Nat.min R1 R0 =? 0)%nat then Ok d else UB
                  end)) d' us = Ok d'' /\ DIx d'' /\ full d'' /\ length (a_dat d'') = length v1 /\
    (forall j ax q, In j (map (@uidx Z) us) -> (ax < Nat.min R1 R0)%nat -> in_range sl1 q -> nth_error (a_dat d'') (pos A j (Z.of_nat ax :: q)) = val j (Z.of_nat ax :: q)) /\
    (forall j sub, (j < n)%nat -> in_range (sls A (length a1)) sub -> ~ In j (map (@uidx Z) us) \/ Z.of_nat (Nat.min R1 R0) <= hd 0 sub -> nth_error (a_dat d'') (pos A j sub) = nth_error (a_dat d') (pos A j sub)).
Proof.
  induction us as [|u us IH]; intros d' Hm H I F L.
  - exists d'. cbn [rfold map]. split; [reflexivity|]. split; [exact I|]. split; [exact F|]. split; [exact L|]. split; [intros ? ? ? []|auto].
  - destruct (Forall_inv H) as (Hu1 & Hu2 & Hu3). apply Forall_inv_tail in H. cbn [rfold].
    destruct (uold u) as [o|] eqn:Eo; [|congruence]. rewrite Hu2. unfold chk at 1. cbn [orb negb]. rewrite andb_false_r.
    destruct (change_axes (uidx u) (Nat.min R1 R0) 0 d' Hu3) as (d1 & -> & I1 & F1' & L1 & W & Rd); auto. cbn [rbind].
    destruct (IH d1) as (d'' & E2 & I2 & F2 & L2 & W2 & Rd2); auto.
    exists d''. split; [exact E2|]. split; [exact I2|]. split; [exact F2|]. split; [exact L2|]. split.
    + intros j ax q Hj Hax Hq. assert (Hs : in_range (sls A (length a1)) (Z.of_nat ax :: q)) by (apply in_sls2; rewrite <- R1z; split; [lia|exact Hq]).
      destruct (in_dec Nat.eq_dec j (map (@uidx Z) us)) as [Hi|Hi]; [apply W2; auto|]. destruct Hj as [<-|Hj]; [|contradiction].
      rewrite Rd2 by auto. apply W; [lia|exact Hq].
    + intros j sub Hj Hs Hne. cbn [map In] in Hne. rewrite Rd2 by (auto; tauto). apply Rd; auto. destruct Hne as [Hne|Hne]; [left; intros ->; tauto|right; lia].
Qed.

(** The whole step. *)
Variable pa : pin num.
Hypothesis Epa : pview pa = a1.
Hypothesis Rpa : replay qeqb a0 (pdiff pa) = Some a1.
Hypothesis Spa : psdiff pa = Z.of_nat (length a1) - Z.of_nat (length a0).
Hypothesis Kpa : konst = true -> pdiff pa = [].
Variable us : list (update Z).
Hypothesis Uv : forall u, In u us -> uold u = nth_error off0 (uidx u) /\ uval u = nth_error off1 (uidx u) /\ ~ (uold u = None /\ uval u = None).
Hypothesis Ua : forall i, nth_error off0 i <> nth_error off1 i -> In i (map (@uidx Z) us).
Hypothesis Dd : a_dat d2 = map Some v0.
Hypothesis Df : a_dif d2 = [].
Hypothesis Dr : RevI konst (a_rev d2) (nth_error off1).

Lemma idx_pick2 i : (i < length a1)%nat -> exists idx, in_range (shape_now ashape (length a1)) idx /\ rank (shape_now ashape (length a1)) idx = Z.of_nat i.
Proof.
  intros Hi. pose proof (fits_prod A OK WF a1 F1) as Ep. fold ashape in Ep.
  destruct (all_idx_nth (shape_now ashape (length a1)) i) as (idx & _ & R & E); eauto.
  assert (P : Forall (fun d => 0 <= d) (shape_now ashape (length a1))).
  { rewrite Eash. unfold shape_now. constructor; [apply (rows_len a1 F1)|]. destruct (wf_tl A WF d t Eash) as [Wt _]. eapply Forall_impl; [|exact Wt]. cbn; lia. }
  apply all_idx_len in P. lia.
Qed.

Lemma mode2 : exists d3, b2_prop strict dbg A konst pa us d2 = Ok d3 /\ DIx d3 /\ a_dat d3 = map Some v1.
Proof.
  unfold b2_prop. rewrite Epa, Spa.
  destruct (istr_hd A OK WF) as (d' & t' & Ea' & Eh & _). fold ashape in Ea'. rewrite Eash in Ea'. injection Ea' as <- <-. rewrite Eh. pose proof t_pos as Pt.
  destruct (Z.eqb_spec (prod t) 0); [lia|].
  replace (Z.of_nat (length a1) - (Z.of_nat (length a1) - Z.of_nat (length a0))) with (Z.of_nat (length a0)) by lia.
  destruct (rows_len a0 F0) as [Q0 Q0']. destruct (rows_len a1 F1) as [Q1 Q1'].
  assert (E0 : Z.to_nat (Z.quot (Z.of_nat (length a0)) (prod t)) = R0) by (rewrite <- Q0, Z.quot_mul by lia; reflexivity).
  assert (E1 : Z.to_nat (Z.quot (Z.of_nat (length a1)) (prod t)) = R1) by (rewrite <- Q1, Z.quot_mul by lia; reflexivity).
  rewrite E0, E1.
  assert (Eoff : length (a_off d2) = n) by (rewrite Do; unfold off1; now rewrite map_length, seq_length).
  rewrite Eoff.
  assert (I0 : DIx d2).
  { constructor; [repeat split| | |]; rewrite Df.
    - rewrite rp_nil, Dd, map_map. cbn [dfl]. now rewrite map_id.
    - constructor.
    - constructor. }
  assert (Fu0 : full d2) by (unfold full; rewrite Dd; apply Forall_map; apply Forall_forall; intros; discriminate).
  assert (L0 : length (a_dat d2) = length v0) by (rewrite Dd; apply map_length).
  (* rows *)
  assert (Hrows : exists d3 d4, rfold (fun d ax => rfold (offs_fill strict dbg A FPlace a1 ax) d (seq 0 n)) d2 (seq R0 (R1 - R0)) = Ok d3 /\
    rfold (fun d ax => rfold (offs_fill strict dbg A FRemove a1 ax) d (rev (seq 0 n))) d3 (rev (seq R1 (R0 - R1))) = Ok d4 /\
    DIx d4 /\ full d4 /\ length (a_dat d4) = length v1 /\
    (forall j sub, (j < n)%nat -> in_range (sls A (length a1)) sub -> hd 0 sub < Z.of_nat (Nat.min R1 R0) -> nth_error (a_dat d4) (pos A j sub) = nth_error (map Some v0) (pos A j sub)) /\
    (forall j sub, (j < n)%nat -> in_range (sls A (length a1)) sub -> Z.of_nat (Nat.min R1 R0) <= hd 0 sub -> nth_error (a_dat d4) (pos A j sub) = val j sub)).
  { destruct (Nat.le_gt_cases R0 R1) as [Hle|Hgt].
    - replace (R0 - R1)%nat with O by lia. cbn [seq rev rfold].
      destruct (place_axes (R1 - R0) R0 d2) as (d3 & E3 & I3 & F3 & L3 & Rd & W); auto; try lia.
      { destruct (Nat.eq_dec R0 R1) as [Eq|Hne]; [left; lia|right]. split; [now apply not_fixed2|now apply first_one]. }
      { now rewrite L0, lw0. }
      exists d3, d3. split; [exact E3|]. split; [reflexivity|]. split; [exact I3|]. split; [exact F3|]. split; [exact L3|]. split.
      + intros j sub Hj Hs Hr. rewrite <- Dd. apply Rd. rewrite L0. destruct (sub_cons _ _ Hs) as (r & q & -> & Hr' & Hq). cbn [hd] in Hr.
        assert (Hs0 : in_range (sls A (length a0)) (r :: q)) by (apply in_sls2; rewrite <- R0z; split; [lia|exact Hq]).
        pose proof (pos_lt A OK konst SUP WF n (length a0) j _ N1 Hj Hs0) as Q. rewrite <- (g_vlen _ _ _ _ _ _ _ G0) in Q. lia.
      + intros j sub Hj Hs Hr. destruct (sub_cons _ _ Hs) as (r & q & -> & Hr' & Hq). cbn [hd] in Hr. rewrite <- R1z in Hr'. rewrite <- (Z2Nat.id r) by lia. apply W; auto. lia.
    - replace (R1 - R0)%nat with O by lia. cbn [seq rfold].
      assert (Hl : lead spec = 1%nat) by (apply first_one; lia).
      destruct (remove_axes (R0 - R1) d2) as (d4 & E4 & I4 & F4 & L4); auto; try lia.
      { right. split; [apply not_fixed2; lia|]. split; [apply not_strict2; lia|exact Hl]. }
      { rewrite L0, lw0. f_equal. f_equal. lia. }
      exists d2, d4. split; [reflexivity|]. split; [exact E4|]. split; [exact I4|]. split; [exact F4|].
      assert (L4' : length (a_dat d4) = length v1) by (rewrite L4, firstn_length, L0, lw0, lw1; nia). split; [exact L4'|]. split.
      + intros j sub Hj Hs Hr. rewrite L4, nth_error_firstn, Dd. pose proof (pos_lt A OK konst SUP WF n (length a1) j _ N1 Hj Hs) as Q. rewrite <- (g_vlen _ _ _ _ _ _ _ G1) in Q.
        rewrite lw1 in Q. destruct (Nat.ltb_spec (pos A j sub) (R1 * n * P1)); [reflexivity|lia].
      + intros j sub Hj Hs Hr. destruct (sub_cons _ _ Hs) as (r & q & -> & Hr' & Hq). cbn [hd] in Hr. rewrite <- R1z in Hr'. lia. }
  destruct Hrows as (d3 & d4 & -> & E4 & I4 & F4 & L4 & Wold & Wnew). cbn [rbind]. rewrite E4. cbn [rbind].
  assert (Hus : Forall (fun u => uold u <> None /\ uval u = Some (contrib (strs A) arrs1 (uidx u)) /\ (uidx u < n)%nat) us).
  { apply Forall_forall. intros u Hu. destruct (Uv u Hu) as (U1 & U2 & U3). rewrite o0_nth in U1. rewrite o1_nth in U2.
    destruct (Nat.ltb_spec (uidx u) n); [|exfalso; apply U3; auto]. rewrite U1, U2. repeat split; auto; discriminate. }
  destruct (change_all us d4) as (d5 & -> & I5 & F5 & L5 & W5 & R5); auto; [lia|]. cbn [rbind].
  set (U := map (@uidx Z) us) in *. set (mr := Nat.min R1 R0) in *.
  assert (Hkeep : forall j, (j < n)%nat -> ~ In j U -> contrib (strs A) arrs1 j = contrib (strs A) arrs0 j).
  { intros j Hj Hu. destruct (Z.eq_dec (contrib (strs A) arrs0 j) (contrib (strs A) arrs1 j)) as [|Hne]; [auto|]. exfalso. apply Hu. apply Ua. rewrite o0_nth, o1_nth.
    destruct (Nat.ltb_spec j n); try lia. congruence. }
  assert (Hsub0 : forall sub, in_range (sls A (length a1)) sub -> hd 0 sub < Z.of_nat mr -> in_range (sls A (length a0)) sub).
  { intros sub Hs Hr. destruct (sub_cons _ _ Hs) as (r & q & -> & Hr' & Hq). cbn [hd] in Hr. apply in_sls2. rewrite <- R0z. split; [lia|exact Hq]. }
  assert (Hold : forall j sub, (j < n)%nat -> ~ In j U -> in_range (sls A (length a1)) sub -> hd 0 sub < Z.of_nat mr -> nth_error (a_dat d5) (pos A j sub) = Some (nth_error a0 (src A arrs1 j sub))).
  { intros j sub Hj Hu Hs Hr. rewrite R5 by auto. rewrite Wold by auto. pose proof (Hsub0 sub Hs Hr) as Hs'. rewrite nth_error_map.
    rewrite (g_val _ _ _ _ _ _ _ G0) by auto. unfold src, srcz. rewrite (Hkeep j Hj Hu). fold (srcz A arrs0 j sub).
    destruct (good_src A OK WF m _ _ _ _ _ j sub G0 Hj Hs' F0) as (cs & _ & _ & Bd & _).
    destruct (@nth_error_get _ (Z.to_nat (srcz A arrs0 j sub)) a0) as [y Ey]; [lia|]. now rewrite Ey. }
  assert (Hupd : forall j sub, (j < n)%nat -> in_range (sls A (length a1)) sub -> In j U \/ Z.of_nat mr <= hd 0 sub -> nth_error (a_dat d5) (pos A j sub) = val j sub).
  { intros j sub Hj Hs Hc. destruct (Z.le_gt_cases (Z.of_nat mr) (hd 0 sub)) as [Hr|Hr].
    - rewrite R5 by auto. apply Wnew; auto.
    - destruct Hc as [Hc|Hc]; [|lia]. destruct (sub_cons _ _ Hs) as (r & q & -> & Hr' & Hq). cbn [hd] in Hr. rewrite <- (Z2Nat.id r) by lia. apply W5; auto. lia. }
  set (S0 := all_idx (Z.of_nat mr :: sl1)).
  assert (HS0 : forall sub, In sub S0 <-> in_range (sls A (length a1)) sub /\ hd 0 sub < Z.of_nat mr).
  { intros sub. unfold S0. rewrite in_all_idx. split.
    - intros Hs. destruct (in_range_inv _ _ _ Hs) as (r & q & -> & Hr & Hq). cbn [hd]. split; [|lia]. apply in_sls2. rewrite <- R1z. split; [lia|exact Hq].
    - intros [Hs Hr]. destruct (sub_cons _ _ Hs) as (r & q & -> & Hr' & Hq). cbn [hd] in Hr. constructor; [lia|exact Hq]. }
  set (lim := Z.to_nat (Z.min (Z.of_nat (length a1)) (Z.of_nat (length a0)))).
  assert (Elim : Z.of_nat lim = Z.of_nat mr * prod t).
  { unfold lim, mr. rewrite Z2Nat.id by lia. rewrite <- Q0, <- Q1, <- R0z, <- R1z. rewrite Nat2Z.inj_min. apply Z.mul_min_distr_nonneg_r. lia. }
  assert (Hfin : exists d6, rfold (par_update dbg A konst true U lim a1) d5 (pdiff pa) = Ok d6 /\ DIx d6 /\ length (a_dat d6) = length v1 /\
     forall j sub, (j < n)%nat -> in_range (sls A (length a1)) sub -> nth_error (a_dat d6) (pos A j sub) = val j sub).
  { assert (Hk : konst = true \/ konst = false) by (destruct konst; auto). destruct Hk as [Ek|Ek].
    - rewrite (Kpa Ek) in *. cbn [rfold]. rewrite rp_nil in Rpa. injection Rpa as Ea. exists d5. split; [reflexivity|]. split; [exact I5|]. split; [exact L5|].
      intros j sub Hj Hs. destruct (Z.le_gt_cases (Z.of_nat mr) (hd 0 sub)) as [Hr|Hr]; [apply Hupd; auto|].
      destruct (in_dec Nat.eq_dec j U); [apply Hupd; auto|]. rewrite Hold by auto. now rewrite Ea.
    - destruct (par_loop_ok dbg A konst v0 M fixed true U lim a1 n S0 (pos A) (src A arrs1) off1) with (d0 := d2) (start := a_dat d5) (us := pdiff pa) (l := a0) (l' := a1) (d := d5)
        as (d6 & E6 & P6).
      + unfold off1. now rewrite map_length, seq_length.
      + exact Ek.
      + intros i Hi. assert (Hi1 : (i < length a1)%nat) by (clear -Hi; unfold lim in Hi; lia). destruct (idx_pick2 i Hi1) as (idx & Ri & Ei).
        exists (offset (strs A) (pick true spec idx)), (offset (SO A) (pick false spec idx)).
        assert (Rs0 : in_range (sls A (length a1)) (pick false spec idx)) by (apply in_range_pickk; exact Ri).
        assert (Rs : In (pick false spec idx) S0).
        { apply HS0. split; [exact Rs0|]. rewrite Eash in Ri, Ei. unfold shape_now in Ri, Ei. fold (rows (length a1)) in Ri, Ei. destruct (in_range_inv _ _ _ Ri) as (r & q & -> & Hr & Hq).
          rewrite Espec. cbn [pick Bool.eqb hd]. rewrite rank_cons in Ei by (apply in_range_len; exact Hq). pose proof (rank_bounds _ _ Hq). eapply row_lt; [exact Pt| |exact Ei|exact Hi|exact Elim]; apply H. }
        split; [|split].
        * rewrite (cur_now A WF) by exact WF. rewrite <- (now_wt A OK WF (length a1)).
          pose proof (mapped_eq A (ad_spec A) (shape_now (ad_shape A) (length a1)) idx 0 false 0 (0, 0) (now_len A OK WF _) Ri ltac:(lia)) as Q.
          fold ashape in Q |- *. rewrite Ei in Q. rewrite Z.mul_0_l, Z.add_0_l in Q. rewrite Q. cbn [fst snd]. fold spec. unfold spec at 3. rewrite (mouts_SO2 A OK B).
          unfold strs. rewrite <- (now_wt A OK WF (length a1)). reflexivity.
        * intros j Hj. pose proof Hj as Hj'. rewrite o1_nth in Hj'. destruct (Nat.ltb_spec j n) as [Hjn|]; [|discriminate]. injection Hj' as Hj'.
          exists (pick false spec idx). split; [exact Rs|]. split; [symmetry; apply (pos_val A OK konst SUP WF n (length a1)); auto|].
          unfold src, srcz. rewrite Hj'. rewrite <- (Nat2Z.id i), <- Ei. f_equal.
          rewrite rank_offset by (apply in_range_len; exact Ri). unfold strs, SS. unfold ashape. rewrite (now_wt A OK WF).
          rewrite <- (merge_pick spec idx) at 3 by (rewrite <- (in_range_len _ _ Ri); apply (now_len A OK WF)). fold spec. symmetry. apply offset_merge.
          -- rewrite (ok_istr _ OK), wt_len. symmetry. apply (ok_len _ OK).
          -- apply pick_len. rewrite (ok_istr _ OK), wt_len, <- (in_range_len _ _ Ri). unfold shape_now, ashape. destruct (ad_shape A); reflexivity.
          -- apply pick_len. rewrite (ok_istr _ OK), wt_len, <- (in_range_len _ _ Ri). unfold shape_now, ashape. destruct (ad_shape A); reflexivity.
        * intros j sub Hj Hs Es. apply HS0 in Hs. destruct Hs as [Hs' _].
          destruct (good_src A OK WF m _ _ _ _ _ j sub G1 Hj Hs' F1) as (cs & T1 & T2 & T3 & T4 & T5).
          assert (Eid : merge spec cs sub = idx).
          { apply (rank_inj (shape_now ashape (length a1))); [exact T2|exact Ri|]. unfold src in Es. fold spec ashape in T1. lia. }
          assert (Ecs : cs = pick true spec idx).
          { rewrite <- Eid. symmetry. apply (pick_merge_true spec (ad_istr A)).
            - rewrite (ok_istr _ OK), wt_len. symmetry. apply (ok_len _ OK).
            - exact T5. }
          assert (Esub : sub = pick false spec idx).
          { rewrite <- Eid. symmetry. apply (pick_merge_false spec (shape_now ashape (length a1))).
            - apply (now_len A OK WF).
            - symmetry. apply in_range_len. exact Hs'. }
          split.
          -- rewrite o1_nth. destruct (Nat.ltb_spec j n); [|lia]. now rewrite T4, Ecs.
          -- rewrite <- Esub. apply (pos_val A OK konst SUP WF n (length a1)); auto.
      + intros j sub j' sub' Hj Hj' Hs Hs'. apply HS0 in Hs, Hs'. destruct Hs, Hs'. apply (pos_inj A OK konst SUP WF n (length a1)); auto.
      + intros j sub Hj Hs. apply HS0 in Hs. destruct Hs as [Hs Hr].
        destruct (good_src A OK WF m _ _ _ _ _ j sub G1 Hj Hs F1) as (cs & T1 & T2 & T3 & _). unfold src.
        destruct (sub_cons _ _ Hs) as (r & q & -> & Hr' & Hq). cbn [hd] in Hr. fold spec ashape in T1, T2. rewrite Espec, Eash in T1, T2. cbn [merge hd tl] in T1, T2.
        unfold shape_now in T1, T2. assert (T2' : in_range t (merge s cs q)) by (inversion T2; assumption). rewrite rank_cons in T1 by (apply in_range_len; exact T2'). pose proof (rank_bounds _ _ T2') as Hb. eapply row_in; [exact Pt|apply Hr'|exact Hb|exact T1|exact Hr|exact Elim].
      + constructor.
        * exact I5.
        * reflexivity.
        * intros j sub [Hj Hu] Hs. apply HS0 in Hs. destruct Hs. apply Hold; auto.
        * auto.
      + exact Do.
      + exact Dr.
      + rewrite L5. unfold M. lia.
      + exact Rpa.
      + discriminate.
      + exists d6. split; [exact E6|]. destruct P6 as [P1' P2' P3' P4']. split; [exact P1'|]. split; [congruence|].
        intros j sub Hj Hs. assert (Hc : (In j U \/ Z.of_nat mr <= hd 0 sub) \/ (~ In j U /\ hd 0 sub < Z.of_nat mr)).
        { destruct (in_dec Nat.eq_dec j U); [auto|]. destruct (Z.le_gt_cases (Z.of_nat mr) (hd 0 sub)); [auto|right; split; auto]. }
        destruct Hc as [Hc|[Hu Hr]].
        * rewrite P4'; [apply Hupd; auto|]. intros j' sub' [Hj' Hu'] Hs' Ep. apply HS0 in Hs'. destruct Hs' as [Hs' Hr'].
          apply (pos_inj A OK konst SUP WF n (length a1)) in Ep; auto. destruct Ep as [-> ->]. destruct Hc; [contradiction|lia].
        * apply P3'; [split; auto|]. apply HS0. auto. }
  destruct Hfin as (d6 & E6 & I6 & L6 & W6). exists d6. split; [exact E6|]. split; [exact I6|].
  apply (vals_eq A OK konst SUP WF m _ v1 a1 arrs1 n _ G1 N1 L6). auto.
Qed.
End WithD.
End Mode2.
