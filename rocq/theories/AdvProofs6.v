(** The specification, position by position. *)
From Verif Require Import Base SliceModel ShapeModel ShapeSpec ShapeProofs StateDataModel StateDataSpec Replay NodeSpec BinaryModel Num QuadModel PermModel PermSpec PermProofs DedupModel AdvModel AdvSpec AdvProofs AdvProofs2 AdvProofs3 AdvProofs4 AdvProofs5.
Local Open Scope Z_scope.

Lemma all_some_nth {X Y} (f : X -> option Y) l : forall r i x, all_some (map f l) = Some r -> nth_error l i = Some x ->
  exists y, f x = Some y /\ nth_error r i = Some y.
Proof.
  induction l as [|h t IH]; intros r i x E H; [destruct i; discriminate H|]. cbn [map all_some] in E.
  destruct (f h) as [y|] eqn:Ef; [|discriminate]. destruct (all_some (map f t)) as [r'|] eqn:Er; [|discriminate]. injection E as <-.
  destruct i as [|i]; cbn [nth_error] in *.
  - injection H as <-. eauto.
  - eapply IH; eauto.
Qed.

Lemma coords_ok bounds : forall arrs strs j cs, length arrs = length bounds -> length strs = length bounds -> coords bounds arrs j = Some cs ->
  in_range (map Z.of_nat bounds) cs /\ contrib strs arrs j = offset strs cs /\ length cs = length bounds /\
  (forall x l, In l arrs -> nth_error l j = Some x -> exists z, x = zq z).
Proof.
  unfold coords. induction bounds as [|b bounds IH]; intros [|l arrs] [|s strs] j cs La Ls E; try discriminate La; try discriminate Ls.
  - cbn in E. injection E as <-. cbn. repeat split; [constructor|intros ? ? []].
  - cbn [combine map all_some fst snd] in E. destruct (nth_error l j) as [x|] eqn:Ex; [|discriminate].
    destruct (below b x) as [i|] eqn:Eb; [|discriminate]. cbn [option_map] in E. apply below_some in Eb. destruct Eb as [Hi ->].
    destruct (all_some _) as [r|] eqn:Er; [|discriminate]. injection E as <-.
    destruct (IH arrs strs j r) as (I1 & I2 & I3 & I4); auto.
    cbn [map contrib offset length]. split; [|split; [|split]].
    + constructor; [lia|exact I1].
    + unfold entry. rewrite Ex, ztrunc_zq, I2. lia.
    + now rewrite I3.
    + intros y l' [<-|Hl] Hy; [rewrite Ex in Hy; injection Hy as <-; eauto|eauto].
Qed.

Lemma rank_ins1 k : forall sl sub, length sl = length sub -> (k <= length sl)%nat -> rank (ins k 1 sl) (ins k 0 sub) = rank sl sub.
Proof.
  induction k as [|k IH]; intros sl sub L H.
  - change (rank (1 :: sl) (0 :: sub) = rank sl sub). rewrite rank_cons by exact L. lia.
  - destruct sl as [|d sl], sub as [|i sub]; try discriminate L; [cbn in H; lia|]. rewrite !ins_S. rewrite !rank_cons by (rewrite ?ins_len; cbn in L; lia).
    rewrite prod_ins, IH by (cbn in *; lia). lia.
Qed.

Section G.
Variable A : adv.
Hypothesis OK : adv_ok A.
Variable konst : bool.
Hypothesis SUP : supported A konst.
Hypothesis WF : wf_shape (ad_shape A).
Variable m : nat.
Let spec := ad_spec A.
Let ashape := ad_shape A.

Lemma axis_pos n la j sub : nfit A n -> (j < n)%nat -> in_range (sls A la) sub ->
  rank (ins (result_axis spec) (Z.of_nat n) (sls A la)) (ins (result_axis spec) (Z.of_nat j) sub) = Z.of_nat (pos A j sub).
Proof.
  intros Hn Hj Hs. destruct (pos_rank A OK konst SUP WF n la j sub Hn Hj Hs) as [-> _].
  unfold result_axis, cK. fold spec. pose proof (ok_b1 _ OK) as B. fold spec in B.
  destruct (separatedb spec) eqn:Se; [cbn in B; rewrite B; reflexivity|]. destruct (hd false spec) eqn:Hh.
  { rewrite B. cbn [orb]. destruct spec as [|[] s]; try discriminate Hh. reflexivity. }
  cbn [orb] in B. rewrite B. destruct (Nat.eqb_spec (ad_ind A) 0) as [E|E]; [|reflexivity].
  assert (n = 1%nat).
  { rewrite (ok_ind _ OK) in E. unfold nfit, fits_len in Hn. destruct (ad_ishape A); [|discriminate E]. cbn in Hn. lia. }
  subst n. replace j with O by lia. cbn [Z.of_nat]. change (Z.of_nat 1) with 1.
  assert (Ls : length (sls A la) = length sub) by (apply in_range_len; exact Hs).
  rewrite (rank_ins1 (lead spec)); [|exact Ls|rewrite (sls_len A OK WF); apply lead_nslices].
  rewrite (rank_ins1 0); [reflexivity|exact Ls|lia].
Qed.

Definition abounds : list nat := match ashape with d :: t => (if d <? 0 then m else Z.to_nat d) :: map Z.to_nat t | [] => [] end.

Lemma abounds_len : length abounds = length spec.
Proof. unfold abounds. pose proof (ok_len _ OK) as L. fold spec ashape in L. rewrite L. destruct ashape; cbn; auto. now rewrite map_length. Qed.

Lemma wf_tl d t : ashape = d :: t -> Forall (fun x => 0 < x) t /\ 0 < prod t.
Proof. intros E. destruct WF as (W & _). fold ashape in W. rewrite E in W. cbn [tl] in W. split; [exact W|]. apply prod_pos. exact W. Qed.
Lemma abounds_z d t : ashape = d :: t -> map Z.of_nat abounds = (if d <? 0 then Z.of_nat m else d) :: t.
Proof.
  intros E. unfold abounds. rewrite E. cbn [map]. f_equal.
  - destruct (Z.ltb_spec d 0); lia.
  - destruct (wf_tl _ _ E) as [W _]. clear E. induction W as [|x t Hx W IH]; [reflexivity|]. cbn [map]. rewrite IH. f_equal. lia.
Qed.

Lemma fits_prod (a : list num) : fits ashape a -> prod (shape_now ashape (length a)) = Z.of_nat (length a).
Proof.
  intros F. unfold fits, fits_len in F. unfold shape_now. pose proof (ok_ne _ OK) as Ne. fold ashape in Ne.
  destruct ashape as [|d t] eqn:E; [congruence|]. destruct (wf_tl _ _ E) as [_ P]. cbn [dynamic] in F. destruct (Z.ltb_spec d 0).
  - destruct F as (k & Hk & Ek). cbn [tl prod] in *. rewrite Ek. rewrite Z.div_mul by lia. lia.
  - cbn [prod] in *. lia.
Qed.

Lemma F_good inp v : adv_fun ashape m spec inp = Some v -> Forall2 fits (ashape :: repeat (ad_ishape A) (length (filter (fun b => b) spec))) inp ->
  exists a arrs n, Good A m inp v a arrs n /\ nfit A n /\ fits ashape a.
Proof.
  intros E HF. unfold adv_fun in E. destruct inp as [|a [|l0 ls]]; try discriminate.
  apply f2c in HF. destruct HF as [Fa HF].
  set (sh := shape_now ashape (length a)) in *. set (arrs := l0 :: ls) in *.
  destruct (forallb _ ls && _) eqn:Ec; [|discriminate]. apply andb_true_iff in Ec. destruct Ec as [Ec1 Ec2].
  apply Nat.eqb_eq in Ec2. rewrite forallb_forall in Ec1. set (n := length l0) in *.
  destruct (all_some _) as [css|] eqn:Ecss in E; [|discriminate]. fold abounds in Ecss.
  assert (Hn : nfit A n).
  { unfold nfit. destruct (filter (fun b => b) spec) as [|? ?] eqn:Ef; cbn [length repeat] in HF; [inversion HF|].
    apply f2c in HF. apply HF. }
  assert (Lsh : length sh = length spec) by apply (now_len A OK WF).
  assert (Larr : length arrs = length (pick true spec abounds)).
  { unfold arrs. cbn [length]. rewrite Nat.add_1_r in Ec2. rewrite Ec2. apply pick_len. rewrite abounds_len. exact Lsh. }
  assert (Lst : length (strs A) = length (pick true spec abounds)).
  { unfold strs. apply pick_len. rewrite (ok_istr _ OK), wt_len, abounds_len. symmetry. apply (ok_len _ OK). }
  assert (Hcs : forall j, (j < n)%nat -> coords (pick true spec abounds) arrs j = Some (nth j css [])).
  { intros j Hj. destruct (all_some_nth _ _ _ j j Ecss) as (y & Ey & En).
    - rewrite nth_error_seq. destruct (Nat.ltb_spec j n); [reflexivity|lia].
    - rewrite (nth_error_nth _ _ _ En). exact Ey. }
  set (ax := result_axis spec) in *. set (sl := pick false spec sh) in *.
  assert (Esl : sl = sls A (length a)) by reflexivity.
  assert (Lax : (ax <= length sl)%nat).
  { rewrite Esl, (sls_len A OK WF). unfold ax, result_axis. destruct (separatedb spec); [lia|apply lead_nslices]. }
  assert (Hraw : forall j sub, (j < n)%nat -> in_range sl sub -> exists y,
    nth_error a (Z.to_nat (rank sh (merge spec (nth j css []) sub))) = Some y /\ nth_error v (pos A j sub) = Some y).
  { intros j sub Hj Hs. assert (Ls : length sub = length sl) by (symmetry; apply in_range_len; exact Hs).
    destruct (all_some_nth _ _ _ (pos A j sub) (ins ax (Z.of_nat j) sub) E) as (y & Ey & En).
    - rewrite <- (Nat2Z.id (pos A j sub)). rewrite <- (axis_pos n (length a) j sub) by auto. fold ax. rewrite <- Esl.
      apply nth_all_idx. apply in_range_ins; [exact Hs|lia].
    - rewrite nth_ins, del_ins, Nat2Z.id in Ey by lia. eauto. }
  assert (Eash : exists d t, ashape = d :: t) by (pose proof (ok_ne _ OK) as Ne; fold ashape in Ne; destruct ashape; [congruence|eauto]).
  destruct Eash as (d & t & Eash). destruct (wf_tl _ _ Eash) as [Wt Pt].
  assert (Esh : sh = (if d <? 0 then Z.of_nat (length a) / prod t else d) :: t) by (unfold sh, shape_now; rewrite Eash; reflexivity).
  pose proof (fits_prod a Fa) as Epr. fold sh in Epr.
  assert (Hin : forall j sub, (j < n)%nat -> in_range sl sub -> in_range sh (merge spec (nth j css []) sub) /\
     (dynamic ashape = true -> hd false spec = true -> rank sh (merge spec (nth j css []) sub) < Z.of_nat m * prod t)).
  { intros j sub Hj Hs. destruct (coords_ok _ arrs (strs A) j _ Larr Lst (Hcs j Hj)) as (R & _). rewrite <- pick_map, (abounds_z _ _ Eash) in R.
    destruct (Hraw j sub Hj Hs) as (y & Ey & _). apply nth_error_lt in Ey.
    pose proof (ok_lead _ OK) as Hl. fold spec in Hl. unfold sl in Hs. rewrite Esh in *. rewrite Eash. cbn [dynamic].
    destruct (Z.ltb_spec d 0) as [Hd|Hd].
    - destruct spec as [|[] s]; [cbn in Hl; lia| |].
      + cbn [pick Bool.eqb] in *. destruct (nth j css []) as [|c0 cs']; inversion R as [|? ? ? ? R1 R2]; subst. cbn [merge hd tl] in *.
        assert (R3 : in_range t (merge s cs' sub)) by (apply in_range_merge; auto; cbn in Lsh; lia).
        pose proof (rank_bounds _ _ R3) as B. rewrite rank_cons in * by (apply in_range_len; exact R3). cbn [prod] in Epr.
        split; [|intros; nia]. constructor; [|exact R3]. nia.
      + cbn [pick Bool.eqb] in *. split; [|discriminate]. apply in_range_merge; auto.
    - split; [|discriminate]. apply in_range_merge; auto. }
  exists a, arrs, n.
  assert (Hsrc : forall j sub, (j < n)%nat -> in_range sl sub -> srcz A arrs j sub = rank sh (merge spec (nth j css []) sub)).
  { intros j sub Hj Hs. destruct (coords_ok _ arrs (strs A) j _ Larr Lst (Hcs j Hj)) as (_ & Ec & Lc & _). unfold srcz. rewrite Ec.
    rewrite rank_offset by (rewrite merge_len; exact Lsh). unfold sh. rewrite (now_wt A OK WF). rewrite offset_merge.
    - reflexivity.
    - rewrite (ok_istr _ OK), wt_len. symmetry. apply (ok_len _ OK).
    - fold spec. change (pick true spec (ad_istr A)) with (strs A). lia.
    - rewrite (sub_len A OK WF _ _ Hs). symmetry. apply nslices_pick. rewrite (ok_istr _ OK), wt_len. symmetry. apply (ok_len _ OK). }
  split; [|split; [exact Hn|exact Fa]].
  constructor.
  - reflexivity.
  - unfold arrs. cbn [length]. fold spec ashape sh. lia.
  - discriminate.
  - constructor; [reflexivity|]. apply Forall_forall. intros l Hl. apply Nat.eqb_eq. apply Ec1. exact Hl.
  - exists (fun j => nth j css []). intros j Hj. destruct (coords_ok _ arrs (strs A) j _ Larr Lst (Hcs j Hj)) as (_ & Ec & Lc & Hw).
    split; [exact Ec|]. split; [lia|]. split; [|exact Hw]. intros sub Hs. apply Hin; auto.
  - intros Hd Hh j sub Hj Hs. rewrite Hsrc by auto. fold ashape. rewrite Eash. cbn [tl]. apply Hin; auto.
  - apply all_some_length in E. rewrite map_length in E. rewrite E. rewrite all_idx_len.
    + apply prod_ins.
    + pose proof (sls_nonneg A WF (length a)) as G. rewrite <- Esl in G. unfold ins. rewrite <- (firstn_skipn ax sl) in G. apply Forall_app in G.
      destruct G. apply Forall_app. split; [auto|]. constructor; [lia|auto].
  - intros j sub Hj Hs. destruct (Hraw j sub Hj Hs) as (y & E1 & E2). rewrite E2. unfold src. rewrite Hsrc by auto. auto.
Qed.
End G.
