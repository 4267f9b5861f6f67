(** Positions in the output, and what the specification says about them. *)
From Verif Require Import Base SliceModel ShapeModel ShapeSpec ShapeProofs StateDataModel StateDataSpec Replay NodeSpec BinaryModel Num QuadModel PermModel PermSpec PermProofs DedupModel AdvModel AdvSpec AdvProofs AdvProofs2 AdvProofs3 AdvProofs4.
Local Open Scope Z_scope.

(** What the constructor establishes. *)
Record adv_ok (A : adv) : Prop := {
  ok_ne : ad_shape A <> [];
  ok_len : length (ad_spec A) = length (ad_shape A);
  ok_lead : (lead (ad_spec A) < length (ad_spec A))%nat;
  ok_first : ad_first A = lead (ad_spec A);
  ok_istr : ad_istr A = istrides (ad_shape A);
  ok_ind : ad_ind A = length (ad_ishape A);
  ok_ind1 : (ad_ind A <= 1)%nat;
  ok_b1 : ad_b1 A = separatedb (ad_spec A) || hd false (ad_spec A) || (ad_ind A =? 0)%nat;
  ok_oshape : ad_oshape A = if ad_b1 A then ad_ishape A ++ pick false (ad_spec A) (ad_shape A)
                            else ins (lead (ad_spec A)) (hd 0 (ad_ishape A)) (pick false (ad_spec A) (ad_shape A));
  ok_ostr : ad_ostr A = istrides (ad_oshape A);
  ok_ss : ad_ss A = if (length (ad_oshape A) =? 0)%nat then 1
                    else if (ad_ind A =? 0)%nat then hd 0 (ad_ostr A) * hd 0 (ad_oshape A)
                    else if ad_b1 A then nth (ad_ind A - 1) (ad_ostr A) 0 else nth (ad_first A) (ad_ostr A) 0;
  ok_fix : ad_b1 A = false -> dynamic (ad_ishape A) = false }.

(** The cases that are handled correctly. *)
Definition supported (A : adv) (konst : bool) : Prop :=
  if ad_b1 A then hd false (ad_spec A) = true \/ (dynamic (ad_shape A) = false /\ (konst = true \/ ad_ind A = 0%nat))
  else dynamic (ad_shape A) = false \/ ad_first A = 1%nat.

Section Pos.
Variable A : adv.
Hypothesis OK : adv_ok A.
Variable konst : bool.
Hypothesis SUP : supported A konst.
Hypothesis WF : wf_shape (ad_shape A).

Let spec := ad_spec A.
Let ashape := ad_shape A.
Definition cK : nat := if ad_b1 A then O else lead spec.
Definition SO : list Z := souts (ad_b1 A) (ad_first A) (ad_ostr A) spec 0 (if ad_b1 A then ad_ind A else 0).
Definition SS : list Z := pick false spec (ad_istr A).
Definition strs : list Z := pick true spec (ad_istr A).
Definition sls (la : nat) : list Z := pick false spec (shape_now ashape la).
Definition subs (la : nat) : list (list Z) := all_idx (sls la).
Definition pos (j : nat) (sub : list Z) : nat := Z.to_nat (Z.of_nat j * ad_ss A + offset SO sub).
Definition srcz (arrs : list (list num)) (j : nat) (sub : list Z) : Z := contrib strs arrs j + offset SS sub.
Definition src (arrs : list (list num)) (j : nat) (sub : list Z) : nat := Z.to_nat (srcz arrs j sub).

Lemma now_len la : length (shape_now ashape la) = length spec.
Proof. unfold shape_now. pose proof (ok_len _ OK) as H. unfold spec, ashape. destruct (ad_shape A); cbn in *; lia. Qed.
Lemma now_wt la : istrides (shape_now ashape la) = ad_istr A.
Proof. rewrite (ok_istr _ OK). unfold shape_now, ashape. destruct (ad_shape A); [reflexivity|]. apply wt_hd. Qed.
Lemma sls_len la : length (sls la) = nslices spec.
Proof. apply nslices_pick. apply now_len. Qed.
Lemma sls0_len : length (pick false spec ashape) = nslices spec.
Proof. apply nslices_pick. symmetry. apply (ok_len _ OK). Qed.

(** The sliced axes: fixed in bullet 1 mode. *)
Lemma b1_sls la : ad_b1 A = true -> sls la = pick false spec ashape.
Proof.
  intros B. unfold supported in SUP. rewrite B in SUP. unfold sls, shape_now, spec, ashape in *. pose proof (ok_ne _ OK). destruct (ad_shape A) as [|d t]; [congruence|].
  destruct (Z.ltb_spec d 0) as [H'|H']; [|reflexivity]. destruct SUP as [H1|[H1 _]].
  - destruct (ad_spec A) as [|[] s]; try discriminate H1. reflexivity.
  - cbn [dynamic] in H1. destruct (Z.ltb_spec d 0); [discriminate|lia].
Qed.
Lemma b2_facts : ad_b1 A = false -> separatedb spec = false /\ hd false spec = false /\ ad_ind A = 1%nat /\ (1 <= lead spec)%nat.
Proof.
  intros B. pose proof (ok_b1 _ OK) as E. rewrite B in E. symmetry in E. apply orb_false_iff in E. destruct E as [E E3]. apply orb_false_iff in E. destruct E as [E1 E2].
  apply Nat.eqb_neq in E3. pose proof (ok_ind1 _ OK). pose proof (ok_lead _ OK) as L. unfold spec. repeat split; auto; try lia.
  destruct (ad_spec A) as [|[] s]; cbn in E2, L |- *; try discriminate; lia.
Qed.
Lemma b2_sls la : ad_b1 A = false -> exists d t s, ashape = d :: t /\ spec = false :: s /\
  pick false spec ashape = d :: pick false s t /\ sls la = (if d <? 0 then Z.of_nat la / prod t else d) :: pick false s t.
Proof.
  intros B. destruct (b2_facts B) as (_ & H & _). unfold sls, spec, ashape, shape_now in *. pose proof (ok_len _ OK) as L. pose proof (ok_ne _ OK) as N.
  destruct (ad_shape A) as [|d t]; [congruence|]. destruct (ad_spec A) as [|[] s]; cbn in H, L; try discriminate. exists d, t, s. repeat split.
Qed.

(** The number of entries agrees with the static shape of the indexing arrays. *)
Definition nfit (n : nat) : Prop := fits_len (ad_ishape A) n.

Lemma SO_b1 : ad_b1 A = true -> SO = nths (ad_ostr A) (ad_ind A) (nslices spec).
Proof. intros B. unfold SO. rewrite souts_flat by now left. now rewrite B. Qed.
Lemma SO_b2 : ad_b1 A = false -> SO = nths (ad_ostr A) 0 (lead spec) ++ nths (ad_ostr A) (Datatypes.S (lead spec)) (nslices spec - lead spec).
Proof. intros B. unfold SO. rewrite souts_b2; [|exact B|rewrite (ok_first _ OK); reflexivity|apply (ok_lead _ OK)]. now rewrite B. Qed.

Lemma geo n la j sub : nfit n -> length sub = nslices spec ->
  rank (ins cK (Z.of_nat n) (sls la)) (ins cK (Z.of_nat j) sub) = Z.of_nat j * ad_ss A + offset SO sub.
Proof.
  intros Hn Ls. unfold cK. pose proof (ok_ss _ OK) as Ess. pose proof (ok_oshape _ OK) as Eo. pose proof (ok_ostr _ OK) as Est.
  destruct (ad_b1 A) eqn:B.
  - rewrite (SO_b1 B). change (rank (Z.of_nat n :: sls la) (Z.of_nat j :: sub) = Z.of_nat j * ad_ss A + offset (nths (ad_ostr A) (ad_ind A) (nslices spec)) sub).
    rewrite rank_cons by (rewrite sls_len; lia). rewrite (b1_sls la B). fold spec ashape in Eo. set (sl := pick false spec ashape) in *.
    assert (Lsl : length sl = nslices spec) by apply sls0_len.
    rewrite (rank_offset sl sub) by lia.
    pose proof (ok_ind _ OK) as Ei. pose proof (ok_ind1 _ OK) as Ei1. destruct (ad_ishape A) as [|k0 [|? ?]]; cbn [length] in Ei; [| |lia].
    + cbn [app] in Eo. rewrite Ei in Ess. rewrite Ei. cbn [Nat.eqb] in Ess. rewrite Eo in Est, Ess.
      assert (Ln : nths (ad_ostr A) 0 (nslices spec) = ad_ostr A) by (refine (nths_skip (ad_ostr A) 0 (nslices spec) _); rewrite Est, wt_len; cbn [Nat.add]; exact Lsl).
      rewrite Ln, Est. f_equal. f_equal. rewrite Ess, Est.
      destruct sl as [|d t]; [reflexivity|]. cbn [length Nat.eqb hd]. rewrite wt_cons. cbn [hd prod]. lia.
    + cbn [app] in Eo. rewrite Ei in Ess. rewrite Ei. rewrite Eo in Est, Ess. cbn [length Nat.eqb Nat.sub] in Ess.
      assert (Ln : nths (ad_ostr A) 1 (nslices spec) = skipn 1 (ad_ostr A)) by (apply nths_skip; rewrite Est, wt_len; cbn [length]; lia).
      rewrite Ln. rewrite Est, wt_cons in *. cbn [skipn nth] in *. now rewrite Ess.
  - destruct (b2_facts B) as (_ & _ & Ei & Hl). rewrite (SO_b2 B).
    assert (Lo : length (ad_ostr A) = Datatypes.S (nslices spec)) by (rewrite Est, wt_len, Eo, ins_len; fold spec ashape; now rewrite sls0_len).
    rewrite nths_del by (auto; apply lead_nslices).
    assert (Ew : istrides (ins (lead spec) (Z.of_nat n) (sls la)) = ad_ostr A).
    { rewrite Est, Eo. destruct (b2_sls la B) as (d & t & s & E1 & E2 & E3 & E4). fold spec ashape. rewrite E3, E4.
      replace (hd 0 (ad_ishape A)) with (Z.of_nat n).
      - destruct (lead spec) as [|ld] eqn:El; [lia|]. rewrite !ins_S. apply wt_hd.
      - unfold nfit, fits_len in Hn. rewrite (ok_fix _ OK B) in Hn. rewrite (ok_ind _ OK) in Ei. destruct (ad_ishape A) as [|k0 [|? ?]]; cbn in Ei; try lia. cbn in Hn |- *. lia. }
    rewrite rank_offset by (rewrite !ins_len, sls_len; lia). rewrite Ew.
    pose proof (lead_nslices spec).
    rewrite <- (ins_del (lead spec) 0 (ad_ostr A)) at 1 by lia. rewrite offset_ins.
    + rewrite Ess, Eo, ins_len, Ei, (ok_first _ OK). reflexivity.
    + unfold del. rewrite app_length, firstn_length, skipn_length. lia.
    + unfold del. rewrite app_length, firstn_length, skipn_length. lia.
Qed.

Lemma cK_le la : (cK <= length (sls la))%nat.
Proof. rewrite sls_len. unfold cK. destruct (ad_b1 A); [lia|apply lead_nslices]. Qed.

Lemma in_subs la sub : In sub (subs la) <-> in_range (sls la) sub.
Proof. apply in_all_idx. Qed.

Lemma sub_len la sub : in_range (sls la) sub -> length sub = nslices spec.
Proof. intros H. apply in_range_len in H. rewrite sls_len in H. auto. Qed.

(** Positions: in range, one-to-one and onto. *)
Lemma pos_rank n la j sub : nfit n -> (j < n)%nat -> in_range (sls la) sub ->
  Z.of_nat (pos j sub) = rank (ins cK (Z.of_nat n) (sls la)) (ins cK (Z.of_nat j) sub) /\ 0 <= Z.of_nat j * ad_ss A + offset SO sub.
Proof.
  intros Hn Hj Hs. unfold pos. pose proof (geo n la j sub Hn (sub_len _ _ Hs)) as G.
  assert (R : in_range (ins cK (Z.of_nat n) (sls la)) (ins cK (Z.of_nat j) sub)) by (apply in_range_ins; [exact Hs|lia]).
  apply rank_bounds in R. lia.
Qed.
Lemma pos_val n la j sub : nfit n -> (j < n)%nat -> in_range (sls la) sub -> Z.of_nat (pos j sub) = Z.of_nat j * ad_ss A + offset SO sub.
Proof. intros Hn Hj Hs. destruct (pos_rank n la j sub Hn Hj Hs) as [_ H]. unfold pos. lia. Qed.
Lemma pos_lt n la j sub : nfit n -> (j < n)%nat -> in_range (sls la) sub -> Z.of_nat (pos j sub) < Z.of_nat n * prod (sls la).
Proof.
  intros Hn Hj Hs. destruct (pos_rank n la j sub Hn Hj Hs) as [-> _]. rewrite <- (prod_ins cK (Z.of_nat n)). apply rank_bounds. apply in_range_ins; [exact Hs|lia].
Qed.
Lemma pos_inj n la j sub j' sub' : nfit n -> (j < n)%nat -> (j' < n)%nat -> in_range (sls la) sub -> in_range (sls la) sub' ->
  pos j sub = pos j' sub' -> j = j' /\ sub = sub'.
Proof.
  intros Hn Hj Hj' Hs Hs' E. destruct (pos_rank n la j sub Hn Hj Hs) as [E1 _]. destruct (pos_rank n la j' sub' Hn Hj' Hs') as [E2 _].
  assert (Eq : ins cK (Z.of_nat j) sub = ins cK (Z.of_nat j') sub').
  { refine (rank_inj (ins cK (Z.of_nat n) (sls la)) _ _ _ _ _); [apply in_range_ins; [exact Hs|lia]|apply in_range_ins; [exact Hs'|lia]|lia]. }
  pose proof (sub_len _ _ Hs) as L1. pose proof (sub_len _ _ Hs') as L2. pose proof (cK_le la) as Lc. rewrite sls_len in Lc. split.
  - pose proof (f_equal (fun l => nth cK l 0) Eq) as Q. cbv beta in Q. rewrite !nth_ins in Q by lia. lia.
  - pose proof (f_equal (del cK) Eq) as Q. rewrite !del_ins in Q by lia. exact Q.
Qed.

Lemma sls_nonneg la : Forall (fun d => 0 <= d) (sls la).
Proof.
  unfold sls. destruct WF as (W1 & _ & W3). fold ashape in W1, W3. assert (F : Forall (fun d => 0 <= d) (shape_now ashape la)).
  { unfold shape_now. destruct ashape as [|d t]; [constructor|]. cbn [tl] in W1. constructor.
    - destruct (Z.ltb_spec d 0); [|lia]. apply Z.div_pos; [lia|]. apply prod_pos. exact W1.
    - eapply Forall_impl; [|exact W1]. cbn. lia. }
  revert F. generalize (shape_now ashape la). clear. induction spec as [|c s IH]; intros [|x l] F; cbn [pick]; try constructor.
  inversion F; subst. destruct (Bool.eqb c false); [constructor|]; auto.
Qed.
Lemma pos_onto n la p : nfit n -> Z.of_nat p < Z.of_nat n * prod (sls la) -> exists j sub, (j < n)%nat /\ in_range (sls la) sub /\ p = pos j sub.
Proof.
  intros Hn Hp. assert (F : Forall (fun d => 0 <= d) (ins cK (Z.of_nat n) (sls la))).
  { unfold ins. apply Forall_app. pose proof (sls_nonneg la) as G. rewrite <- (firstn_skipn cK (sls la)) in G. apply Forall_app in G. destruct G. split; auto. constructor; [lia|auto]. }
  assert (L : (p < length (all_idx (ins cK (Z.of_nat n) (sls la))))%nat) by (pose proof (all_idx_len _ F) as E; rewrite prod_ins in E; lia).
  destruct (all_idx_nth _ _ L) as (o & _ & R & E). destruct (in_range_nth cK _ _ _ (cK_le la) R) as [R1 R2].
  exists (Z.to_nat (nth cK o 0)), (del cK o). split; [lia|]. split; [exact R2|].
  assert (Hj : (Z.to_nat (nth cK o 0%Z) < n)%nat) by lia.
  destruct (pos_rank n la _ _ Hn Hj R2) as [E2 _]. rewrite Z2Nat.id in E2 by lia. rewrite ins_del in E2.
  - rewrite E in E2. lia.
  - apply in_range_len in R. rewrite ins_len in R. pose proof (cK_le la). lia.
Qed.

(** [get_mapped_index] uses the same strides. *)
Lemma mouts_SO : ad_b1 A = true -> hd false spec = true \/ ad_ind A = 0%nat -> mouts A spec 0 false = SO.
Proof.
  intros B H. rewrite (SO_b1 B). rewrite mouts_eq by apply (ok_lead _ OK). cbn [Nat.add].
  pose proof (lead_nslices spec). destruct H as [H|H].
  - assert (El : lead spec = 0%nat) by (destruct spec as [|[] s]; cbn in *; congruence). rewrite El. cbn [nths seq map app Nat.add]. now rewrite Nat.sub_0_r.
  - rewrite H, Nat.add_0_r. unfold nths. rewrite <- map_app, <- seq_app. do 2 f_equal. lia.
Qed.
Lemma mouts_SO2 : ad_b1 A = false -> mouts A spec 0 false = SO.
Proof.
  intros B. destruct (b2_facts B) as (_ & _ & Ei & _). rewrite (SO_b2 B).
  rewrite mouts_eq by apply (ok_lead _ OK). rewrite Ei. cbn [Nat.add]. now rewrite Nat.add_1_r.
Qed.

Lemma cur_now a : wf_shape (ad_shape A) -> cur_shape A a = shape_now ashape (length a).
Proof.
  intros W. unfold cur_shape, shape_now, ashape. destruct (ad_shape A) as [|d t]; [reflexivity|]. destruct (Z.ltb_spec d 0); [|reflexivity].
  rewrite fold_mul, Z.mul_1_l. f_equal. destruct W as (W & _). cbn [tl] in W. apply prod_pos in W. apply Z.quot_div_nonneg; lia.
Qed.

(** What the specification says, position by position. *)
Variable m : nat.
Record Good (inp : list (list num)) (v : list num) (a : list num) (arrs : list (list num)) (n : nat) : Prop := {
  g_inp : inp = a :: arrs;
  g_num : length arrs = length (pick true spec (shape_now ashape (length a)));
  g_ne : arrs <> [];
  g_len : Forall (fun l => length l = n) arrs;
  g_cs : exists cs : nat -> list Z, forall j, (j < n)%nat ->
    contrib strs arrs j = offset strs (cs j) /\ length (cs j) = length strs /\
    (forall sub, in_range (sls (length a)) sub -> in_range (shape_now ashape (length a)) (merge spec (cs j) sub)) /\
    (forall x l, In l arrs -> nth_error l j = Some x -> exists z, x = zq z);
  g_m : dynamic ashape = true -> hd false spec = true -> forall j sub, (j < n)%nat -> in_range (sls (length a)) sub ->
    srcz arrs j sub < Z.of_nat m * prod (tl ashape);
  g_vlen : Z.of_nat (length v) = Z.of_nat n * prod (sls (length a));
  g_val : forall j sub, (j < n)%nat -> in_range (sls (length a)) sub -> nth_error v (pos j sub) = nth_error a (src arrs j sub) }.

Lemma good_src inp v a arrs n j sub : Good inp v a arrs n -> (j < n)%nat -> in_range (sls (length a)) sub -> fits ashape a ->
  exists cs, srcz arrs j sub = rank (shape_now ashape (length a)) (merge spec cs sub) /\ in_range (shape_now ashape (length a)) (merge spec cs sub) /\
    0 <= srcz arrs j sub < Z.of_nat (length a) /\ contrib strs arrs j = offset strs cs /\ length cs = length strs.
Proof.
  intros G Hj Hs Hf. destruct (g_cs _ _ _ _ _ G) as (cs & Hcs). destruct (Hcs j Hj) as (E & L & R & _). specialize (R _ Hs). exists (cs j).
  assert (Es : srcz arrs j sub = rank (shape_now ashape (length a)) (merge spec (cs j) sub)).
  { unfold srcz. rewrite E. rewrite rank_offset by (rewrite now_len, merge_len; reflexivity). rewrite now_wt. rewrite offset_merge.
    - reflexivity.
    - rewrite (ok_istr _ OK), wt_len. symmetry. apply (ok_len _ OK).
    - exact L.
    - rewrite (sub_len _ _ Hs). symmetry. apply nslices_pick. rewrite (ok_istr _ OK), wt_len. symmetry. apply (ok_len _ OK). }
  split; [exact Es|]. split; [exact R|]. split; [|auto]. rewrite Es. apply rank_bounds in R.
  replace (Z.of_nat (length a)) with (prod (shape_now ashape (length a))); [exact R|].
  unfold fits, fits_len in Hf. unfold shape_now. fold ashape in Hf. destruct WF as (W1 & _ & _). fold ashape in W1. pose proof (ok_ne _ OK) as Ne. fold ashape in Ne.
  destruct ashape as [|d t]; [congruence|]. cbn [dynamic tl] in *. apply prod_pos in W1. destruct (Z.ltb_spec d 0).
  - destruct Hf as (k & Hk & Ek). cbn [prod]. rewrite Ek. rewrite Z.div_mul by lia. lia.
  - cbn [prod] in *. lia.
Qed.

(** Two arrays' entries at the same offset select the same elements. *)
Lemma in_range_pickk b la idx : in_range (shape_now ashape la) idx -> in_range (pick b spec (shape_now ashape la)) (pick b spec idx).
Proof. apply in_range_pick. Qed.
End Pos.
