(** The constructor accepts exactly the proper indices, and then every read is in range. *)
From Verif Require Import Base SliceModel ShapeModel ShapeSpec ShapeProofs StateDataModel NodeSpec BinaryModel Num QuadModel PermModel PermSpec PermProofs DedupModel AdvModel AdvSpec AdvSpec2 AdvProofs AdvProofs2 AdvProofs5 AdvProofs6 AdvProofs11.
Local Open Scope Z_scope.

Lemma arr_check_iff ashape amin k d i lo hi : wf_shape ashape -> nth_error ashape k = Some d ->
  (arr_check ashape amin k d i lo hi = Ok tt <-> i = true /\ qleb 0%Qc lo = true /\ exists n, axis_min ashape amin k = Some n /\ qltb hi (zq n) = true).
Proof.
  intros W Hk. unfold arr_check, axis_min. rewrite Hk. destruct i; cbn [negb]; [|split; [discriminate|intros [H _]; discriminate]].
  destruct (qltb_spec lo 0%Qc) as [Hlo|Hlo].
  { split; [discriminate|]. intros (_ & H & _). destruct (qleb_spec 0%Qc lo); [qlra|discriminate]. }
  assert (Hlo' : qleb 0%Qc lo = true) by (destruct (qleb_spec 0%Qc lo); [reflexivity|qlra]).
  assert (X : forall n, (if qleb (zq n) hi then Throw else Ok tt) = Ok tt <-> qltb hi (zq n) = true).
  { intros n. destruct (qleb_spec (zq n) hi), (qltb_spec hi (zq n)); split; try reflexivity; try discriminate; qlra. }
  destruct ((k =? 0)%nat && (d <? 0)) eqn:E.
  - destruct ashape as [|x t]; [destruct k; discriminate|]. rewrite strides_cons. cbn [hd tl].
    assert (Pt : 0 < prod t).
    { destruct W as [Wt _]. cbn [tl] in Wt. clear -Wt. induction Wt as [|y t Hy Wt IH]; [reflexivity|]. cbn [prod]. nia. }
    destruct amin as [z|]; cbn [option_map]; [|split; [discriminate|intros (_ & _ & n & H & _); discriminate]].
    destruct (Z.eqb_spec (8 * prod t) 0); [lia|]. rewrite X. rewrite (Z.mul_comm z 8), Z.quot_mul_cancel_l by lia.
    split; [intros H; repeat split; auto; eauto|]. intros (_ & _ & n' & H & H'). injection H as <-. exact H'.
  - rewrite X. split; [intros H; repeat split; auto; eauto|]. intros (_ & _ & n' & H & H'). injection H as <-. exact H'.
Qed.

Lemma size_one x : -1 <= x -> x < 2147483648 -> shape_to_size [x] = x.
Proof. intros H1 H2. unfold shape_to_size. destruct (Z.ltb_spec x 0); [lia|]. cbn [fold_left]. unfold to_int. rewrite Z.mod_small by lia. destruct (Z.ltb_spec (1 * x) 2147483648); lia. Qed.
Lemma size_equal_iff s0 src0 s src : wf_shape s0 -> wf_shape s -> (length s0 <= 1)%nat ->
  (size_equal s0 src0 s src = true /\ length s = length s0 <-> s = s0 /\ (dynamic s0 = true -> src = src0)).
Proof.
  intros W0 W L. unfold size_equal. split.
  - intros [H E]. destruct s0 as [|x [|]]; cbn [length] in *; try lia; destruct s as [|y [|]]; try discriminate E.
    + split; [reflexivity|discriminate].
    + destruct W0 as (_ & P0 & M0). destruct W as (_ & P & M). cbn [prod] in P0, P. change (prod []) with 1 in *. rewrite Z.mul_1_r in *. cbn [dynamic] in *.
      destruct (Z.ltb_spec x 0).
      * apply andb_true_iff in H. destruct H as [H H']. apply Z.ltb_lt in H. apply Nat.eqb_eq in H'. split; [f_equal; lia|auto].
      * apply andb_true_iff in H. destruct H as [H H']. rewrite !size_one in H' by lia. apply Z.eqb_eq in H'. split; [now subst|discriminate].
  - intros [-> H]. split; [|reflexivity]. destruct (dynamic s0); cbn; [rewrite H by reflexivity; apply Nat.eqb_refl|apply Z.eqb_refl].
Qed.

Section Accept.
Variable dbg : bool.
Variable ashape : list Z.
Variable least : option Z.
Variable ix : list aindex.
Notation spec := (map is_arr ix).
Hypothesis WF : wf_shape ashape.
Hypothesis NE : ashape <> [].
Hypothesis WFI : forall s src i lo hi, In (AArr s src i lo hi) ix -> wf_shape s.

Lemma find_in s src i lo hi : find is_arr ix = Some (AArr s src i lo hi) -> In (AArr s src i lo hi) ix.
Proof. intros H. apply find_some in H. apply H. Qed.

Lemma chks_iff s src : length ashape = length ix -> (length s <= 1)%nat -> wf_shape s ->
  (chks ashape least s src 0 ashape ix <->
   (forall s' src' i lo hi, In (AArr s' src' i lo hi) ix -> s' = s /\ (dynamic s = true -> src' = src)) /\
   (forall k s src i lo hi, nth_error ix k = Some (AArr s src i lo hi) ->
      i = true /\ qleb 0%Qc lo = true /\ exists n, axis_min ashape least k = Some n /\ qltb hi (zq n) = true)).
Proof.
  intros L Ls Ws. rewrite chks_nth by exact L. split.
  - intros H. split.
    + intros s' src' i lo hi Hin. pose proof (WFI _ _ _ _ _ Hin) as W'. apply In_nth_error in Hin. destruct Hin as [k Hk].
      destruct (@nth_error_get _ k ashape) as [d Hd]; [rewrite L; apply nth_error_Some; congruence|].
      specialize (H k _ d Hk Hd). cbn [chk1] in H. destruct H as (_ & H1 & H2). apply (size_equal_iff s src s' src'); auto.
    + intros k s' src' i lo hi Hk. destruct (@nth_error_get _ k ashape) as [d Hd]; [rewrite L; apply nth_error_Some; congruence|].
      specialize (H k _ d Hk Hd). cbn [chk1 Nat.add] in H. destruct H as (H & _). eapply arr_check_iff; eauto.
  - intros [H1 H2] k x d Hx Hd. destruct x as [s' src' i lo hi|]; cbn [chk1]; [|exact I]. cbn [Nat.add].
    split; [apply arr_check_iff; auto; eapply H2; eauto|]. pose proof (nth_error_In _ _ Hx) as Hin. apply size_equal_iff; eauto.
Qed.

Lemma full_iff : dbg && negb (forallb (fun x => match x with ASlice f => f | _ => true end) ix) = false <-> (dbg = true -> ~ In (ASlice false) ix).
Proof.
  destruct dbg; cbn [andb]; [|split; [discriminate|reflexivity]]. rewrite negb_false_iff, forallb_forall. split.
  - intros H _ Hin. specialize (H _ Hin). discriminate.
  - intros H x Hx. destruct x as [|[]]; auto. exfalso. apply H; auto.
Qed.

Lemma adv_new_iff ishape : (exists A, adv_new dbg ashape least ix = Ok A /\ ad_ishape A = ishape) <->
  adv_accepts ashape least ix ishape /\ (dbg = true -> ~ In (ASlice false) ix).
Proof.
  split.
  - intros (A & H & Ei). apply adv_new_inv in H. destruct H as (L & Ne & s & src & i & lo & hi & Hn & Hf & Hl & C & H1 & H2 & H3 & H4 & ->). cbn [ad_ishape] in Ei. subst ishape.
    assert (Hin : In (AArr s src i lo hi) ix) by (eapply nth_error_In; eauto). pose proof (WFI _ _ _ _ _ Hin) as Ws.
    apply (chks_iff s src L H2 Ws) in C. destruct C as [C1 C2]. split; [|apply full_iff; exact H3]. constructor; auto.
    + exists src. split; [eauto|exact C1].
    + intros D S. apply separatedb_spec in S. rewrite S, D in H1. cbn [andb] in H1. now apply negb_false_iff in H1.
    + intros D. destruct (separatedb spec) eqn:Es; [left; now apply separatedb_spec|right]. cbn [orb] in H4. destruct (hd false spec); [reflexivity|].
      cbn [orb] in H4. destruct s as [|x t]; [discriminate D|]. cbn [length Nat.eqb negb andb] in H4. exfalso.
      assert (existsb (fun x => match x with AArr s _ _ _ _ => dynamic s | _ => false end) ix = true); [|congruence]. apply existsb_exists. eexists. split; [exact Hin|exact D].
  - intros [[L Ln (src & (i & lo & hi & Hin) & Hs) Hr Hrow Hfr] Hd].
    pose proof (WFI _ _ _ _ _ Hin) as Ws. symmetry in L.
    destruct (find is_arr ix) as [x|] eqn:Ef; [|exfalso; pose proof (find_none _ _ Ef _ Hin); discriminate].
    pose proof (find_some _ _ Ef) as [Hx Hx']. destruct x as [s0 src0 i0 lo0 hi0|]; [|discriminate].
    destruct (Hs _ _ _ _ _ Hx) as [-> Hsrc].
    assert (C : chks ashape least ishape src0 0 ashape ix).
    { apply (chks_iff ishape src0 L Ln Ws). split; [|exact Hr]. intros s' src' i' lo' hi' H'. destruct (Hs _ _ _ _ _ H') as [E1 E2]. split; [exact E1|]. intros D. rewrite E2, Hsrc; auto. }
    unfold adv_new. rewrite (proj2 (Nat.eqb_eq _ _) L). cbn [negb]. destruct (Nat.eqb_spec (length ashape) 0) as [E|_]; [destruct ashape; [contradiction|discriminate]|].
    pose proof (parse_none ashape least ix 0 ashape L) as P. rewrite Ef in P. rewrite (proj2 (P _) (conj C eq_refl)). cbn [rbind Nat.add].
    assert (E1 : separatedb spec && dynamic ashape && negb (hd false spec) = false).
    { destruct (separatedb spec) eqn:Es; [|reflexivity]. destruct (dynamic ashape) eqn:D; [|reflexivity]. cbn [andb]. apply separatedb_spec in Es. now rewrite Hrow. }
    rewrite E1. destruct (Nat.ltb_spec 1 (length ishape)); [lia|]. rewrite (proj2 full_iff Hd).
    match goal with |- context [if negb ?b && ?c then _ else _] => assert (E2 : negb b && c = false) end.
    { destruct (existsb _ ix) eqn:Ee; [|apply andb_false_r]. rewrite andb_true_r, negb_false_iff. apply existsb_exists in Ee. destruct Ee as (x & Hxin & Hd').
      destruct x as [s' src' i' lo' hi'|]; [|discriminate]. destruct (Hs _ _ _ _ _ Hxin) as [-> _]. destruct (Hfr Hd') as [S|Hh]; [apply separatedb_spec in S; now rewrite S|now rewrite Hh, orb_true_r]. }
    rewrite E2. eexists. split; [reflexivity|]. reflexivity.
Qed.
End Accept.

(** Whole values between the declared bounds. *)
Definition between (lo hi : num) (l : list num) : Prop := Forall (fun q => (exists z, q = zq z) /\ qleb lo q = true /\ qleb q hi = true) l.
Definition honest (x : aindex) (l : list num) : Prop := match x with AArr _ _ _ lo hi => between lo hi l | ASlice _ => True end.

Lemma coords_total ix : forall bs arrs j, length bs = length ix ->
  (forall k s src i lo hi b, nth_error ix k = Some (AArr s src i lo hi) -> nth_error bs k = Some b -> qleb 0%Qc lo = true /\ qltb hi (zq (Z.of_nat b)) = true) ->
  Forall2 honest (filter is_arr ix) arrs -> Forall (fun l => (j < length l)%nat) arrs ->
  exists cs, coords (pick true (map is_arr ix) bs) arrs j = Some cs.
Proof.
  unfold coords. induction ix as [|x ix IH]; intros [|b bs] arrs j L H F Fj; try discriminate L; cbn [map pick filter is_arr] in *.
  - exists []. reflexivity.
  - injection L as L. destruct x as [s src i lo hi|fl]; cbn [is_arr Bool.eqb] in *.
    + destruct arrs as [|l arrs]; [inversion F|]. inversion F as [|? ? ? ? F1 F2]; subst. pose proof (Forall_inv Fj) as Hj. apply Forall_inv_tail in Fj. cbn [combine map all_some fst snd].
      destruct (@nth_error_get _ j l Hj) as [q Hq]. rewrite Hq. destruct (H O _ _ _ _ _ _ eq_refl eq_refl) as [Hlo Hhi].
      cbn [honest] in F1. unfold between in F1. rewrite Forall_forall in F1. destruct (F1 q (nth_error_In _ _ Hq)) as ((z & ->) & B1 & B2).
      assert (Hz : 0 <= z < Z.of_nat b).
      { destruct (qleb_spec 0%Qc lo); [|discriminate]. destruct (qltb_spec hi (zq (Z.of_nat b))); [|discriminate]. destruct (qleb_spec lo (zq z)); [|discriminate]. destruct (qleb_spec (zq z) hi); [|discriminate].
        split; [apply zq_le|apply zq_lt]; [change (zq 0) with 0%Qc|]; qlra. }
      rewrite (proj2 (below_some b (zq z) (Z.to_nat z))) by (rewrite Z2Nat.id by lia; split; [lia|reflexivity]). cbn [option_map].
      destruct (IH bs arrs j L) as [cs Hcs]; auto.
      { intros k s' src' i' lo' hi' b' Hk Hb. apply (H (S k) s' src' i' lo' hi' b'); auto. }
      rewrite Hcs. eauto.
    + apply IH; auto. intros k s' src' i' lo' hi' b' Hk Hb. apply (H (S k) s' src' i' lo' hi' b'); auto.
Qed.

Lemma all_some_total {X Y} (f : X -> option Y) l : (forall x, In x l -> exists y, f x = Some y) -> exists r, all_some (map f l) = Some r.
Proof.
  induction l as [|x l IH]; intros H; [exists []; reflexivity|]. cbn [map all_some]. destruct (H x (or_introl eq_refl)) as [y ->]. destruct IH as [r ->]; [intros; apply H; now right|]. eauto.
Qed.
Lemma in_range_mono sh sh' idx : in_range sh idx -> Forall2 (fun d d' => d <= d') sh sh' -> in_range sh' idx.
Proof. 
  intros H; revert sh'; induction H as [|d i sh idx Hi H IH]; intros sh' F; inversion F; subst; constructor; [lia|apply IH; assumption].
Qed.
Lemma f2_pick b spec : forall (l l' : list Z) P, Forall2 P l l' -> Forall2 P (pick b spec l) (pick b spec l').
Proof. induction spec as [|c spec IH]; intros l l' P F; destruct F; cbn [pick]; try constructor. destruct (Bool.eqb c b); [constructor|]; auto. Qed.

Lemma filter_pick ix : forall sh : list Z, length sh = length (map is_arr ix) -> length (filter is_arr ix) = length (pick true (map is_arr ix) sh).
Proof.
  induction ix as [|x ix IH]; intros [|d sh] L; try discriminate L; [reflexivity|].
  injection L as L. destruct x; cbn [filter is_arr map pick Bool.eqb length]; [f_equal|]; apply IH; exact L.
Qed.

Lemma reads_ok ashape least ix ishape a arrs n : wf_shape ashape -> adv_accepts ashape least ix ishape -> fits ashape a ->
  (dynamic ashape = true -> forall z, least = Some z -> z <= Z.of_nat (length a)) ->
  Forall2 honest (filter is_arr ix) arrs -> Forall (fun l => length l = n) arrs ->
  exists v, adv_fun ashape (Z.to_nat (Z.quot (match least with Some z => z | None => 0 end) (prod (tl ashape)))) (map is_arr ix) (a :: arrs) = Some v.
Proof.
  intros WF Acc Fa Hl Hh Hn. destruct Acc as [L _ (src & (i & lo & hi & Hin) & _) Hr _ _].
  set (m := Z.to_nat _). set (spec := map is_arr ix).
  assert (Lf : length arrs = length (filter is_arr ix)) by (clear -Hh; induction Hh; cbn; congruence).
  destruct arrs as [|l0 ls].
  { exfalso. cbn in Lf. assert (In (AArr ishape src i lo hi) (filter is_arr ix)) by (apply filter_In; auto). destruct (filter is_arr ix); [contradiction|discriminate]. }
  unfold adv_fun. set (arrs := l0 :: ls). set (sh := shape_now ashape (length a)).
  pose proof (Forall_inv Hn) as Hn0. cbv beta in Hn0. rewrite Hn0.
  assert (Lsh : length sh = length spec) by (unfold sh, shape_now, spec; rewrite map_length, L; destruct ashape; reflexivity).
  assert (C1 : forallb (fun l => (length l =? n)%nat) ls = true).
  { apply forallb_forall. intros x Hx. apply Forall_inv_tail in Hn. rewrite Forall_forall in Hn. apply Nat.eqb_eq. auto. }
  assert (C2 : (length ls + 1 =? length (pick true spec sh))%nat = true).
  { apply Nat.eqb_eq. cbn [length] in Lf. rewrite Nat.add_1_r, Lf. apply filter_pick. exact Lsh. }
  rewrite C1, C2. cbn [andb].
  set (bs := match ashape with d :: t => _ | [] => _ end).
  assert (Pt : 0 < prod (tl ashape)).
  { destruct WF as [Wt _]. clear -Wt. induction Wt as [|y t Hy Wt IH]; [reflexivity|]. cbn [prod]. nia. }
  assert (Lbs : length bs = length ix) by (unfold bs; rewrite L; destruct ashape; cbn; rewrite ?map_length; reflexivity).
  assert (Hco : forall j, (j < n)%nat -> exists cs, coords (pick true spec bs) arrs j = Some cs).
  { intros j Hj. apply coords_total; auto.
    - intros k s' src' i' lo' hi' b Hk Hb. destruct (Hr _ _ _ _ _ _ Hk) as (_ & H1 & z & H2 & H3). split; [exact H1|].
      assert (Hz : z <= Z.of_nat b).
      { unfold axis_min in H2. unfold bs in Hb. destruct ashape as [|d t]; [destruct k; discriminate|]. destruct k as [|k]; cbn [nth_error] in *.
        - cbn [Nat.eqb andb] in H2. destruct (Z.ltb_spec d 0).
          + injection Hb as <-. destruct least as [y|]; [|discriminate]. cbn [option_map] in H2. injection H2 as <-. unfold m. cbn [tl]. lia.
          + injection Hb as <-. injection H2 as <-. lia.
        - rewrite nth_error_map in Hb. destruct (nth_error t k); [|discriminate]. cbn in H2, Hb. injection H2 as <-. injection Hb as <-. lia. }
      destruct (qltb_spec hi' (zq z)); [|discriminate]. destruct (qltb_spec hi' (zq (Z.of_nat b))); [reflexivity|]. apply zq_le in Hz. qlra.
    - apply Forall_forall. intros x Hx. rewrite Forall_forall in Hn. rewrite Hn; auto. }
  destruct (all_some_total (coords (pick true spec bs) arrs) (seq 0 n)) as [css Hcss].
  { intros j Hj. apply in_seq in Hj. apply Hco. lia. }
  rewrite Hcss. apply all_some_total. intros o Ho. apply in_all_idx in Ho.
  assert (Ek : (result_axis spec <= length (pick false spec sh))%nat).
  { unfold result_axis. destruct (separatedb spec); [lia|]. rewrite (nslices_pick spec sh Lsh). apply lead_nslices. }
  destruct (in_range_nth _ _ _ _ Ek Ho) as [Hj Hsub]. set (j := Z.to_nat (nth (result_axis spec) o 0)) in *.
  assert (Hjn : (j < n)%nat) by lia. destruct (Hco j Hjn) as [cs Ecs].
  assert (En : nth j css [] = cs).
  { destruct (all_some_nth _ _ _ j j Hcss) as (y & Hy & Hy'); [rewrite nth_error_seq; destruct (Nat.ltb_spec j n); [reflexivity|lia]|]. rewrite Ecs in Hy. injection Hy as <-. erewrite nth_error_nth; eauto. }
  rewrite En. 
  assert (La : length arrs = length (pick true spec bs)).
  { unfold arrs. cbn [length]. apply Nat.eqb_eq in C2. rewrite Nat.add_1_r in C2. rewrite C2. apply pick_len. rewrite Lbs, Lsh. unfold spec. apply map_length. }
  destruct (coords_ok (pick true spec bs) arrs (pick true spec (map Z.of_nat bs)) j cs La) as (Rc & _); [apply pick_len; now rewrite map_length|exact Ecs|].
  rewrite <- pick_map in Rc.
  assert (Bsh : Forall2 (fun d d' => d <= d') (map Z.of_nat bs) sh /\ prod sh = Z.of_nat (length a)).
  { unfold bs, sh, shape_now. unfold fits, fits_len in Fa. destruct WF as (Wt & _ & Wd). destruct ashape as [|d t]; [destruct ix; [inversion Hin|discriminate L]|]. cbn [tl dynamic map] in *. split.
    - constructor.
      + destruct (Z.ltb_spec d 0) as [Hd|Hd]; [|lia]. unfold m. destruct least as [z|].
        * specialize (Hl eq_refl z eq_refl). destruct (Z.le_gt_cases z 0) as [Hz|Hz].
          -- assert (Hq : Z.quot z (prod t) <= 0).
             { destruct (Z.eq_dec z 0) as [->|]; [rewrite Z.quot_0_l by lia; lia|]. rewrite <- (Z.opp_involutive z), Z.quot_opp_l by lia. pose proof (Z.quot_pos (-z) (prod t)). lia. }
             pose proof (Z.div_pos (Z.of_nat (length a)) (prod t)). lia.
          -- rewrite Z.quot_div_nonneg by lia. rewrite Z2Nat.id by (apply Z.div_pos; lia). apply Z.div_le_mono; lia.
        * rewrite Z.quot_0_l by lia. cbn. apply Z.div_pos; lia.
      + clear -Wt. induction Wt as [|y t Hy Wt IH]; cbn [map]; constructor; auto. lia.
    - cbn [prod]. destruct (Z.ltb_spec d 0) as [Hd|Hd]; [|cbn [prod] in Fa; lia]. destruct Fa as (k & K1 & K2). rewrite K2. rewrite Z.div_mul by lia. reflexivity. }
  destruct Bsh as [Bsh Psh].
  assert (Rm : in_range sh (merge spec cs (del (result_axis spec) o))).
  { apply in_range_merge; [exact Lsh| |exact Hsub]. eapply in_range_mono; [exact Rc|]. apply f2_pick. exact Bsh. }
  pose proof (rank_bounds _ _ Rm) as Rb. destruct (@nth_error_get _ (Z.to_nat (rank sh (merge spec cs (del (result_axis spec) o)))) a) as [y Hy]; [lia|]. eauto.
Qed.
