(** Whole models: the nodes of three of the generators. *)
From Coq Require Import Relations Permutation.
From Verif Require Import Base Num SliceModel ShapeModel ShapeSpec SliceSpec StateDataModel NodeSpec BinaryModel BasicModel BasicSpec ViewModel ElemModel NaryModel
  ReduceModel BoundsModel PermModel AdvModel AdvSpec2 GraphModel GraphSpec ProposeModel ProposeSpec PyModel GenModel PySpec GenSpec PyProofs PyValues PyRules GenProofs GenProofs4 GenProofs6 GenProofs7
  RunModel RunSpec RunProofs RunProofs2 RunProofs3.
Set Implicit Arguments.
Local Open Scope Z_scope.

Lemma adv_new1_any dbg n sh : 0 <= n -> (length sh <= 1)%nat ->
  exists r, adv_new dbg [n] (Some 0) [anarr sh] = Ok r /\ ad_spec r = [true] /\ ad_ishape r = sh /\ ad_oshape r = sh.
Proof.
  intros Hn Hs. unfold adv_new. cbn [length Nat.eqb negb AdvModel.parse anarr]. rewrite arr_ok by exact Hn. cbn [rbind].
  cbn [map is_arr hd orb]. rewrite ?andb_false_r. destruct (Nat.ltb_spec 1 (length sh)); [lia|]. rewrite ?andb_false_r. cbn [forallb negb andb slice_dims].
  eexists. split; [reflexivity|]. cbn [ad_spec ad_ishape ad_oshape]. split; [reflexivity|]. split; [reflexivity|apply app_nil_r].
Qed.
Lemma adv_new2_any dbg n k sh : 0 <= n -> 0 <= k -> (length sh <= 1)%nat ->
  exists r, adv_new dbg [n; k] (Some 0) [anarr sh; anarr sh] = Ok r /\ ad_spec r = [true; true] /\ ad_ishape r = sh /\ ad_oshape r = sh.
Proof.
  intros Hn Hk Hs. unfold adv_new. cbn [length Nat.eqb negb AdvModel.parse anarr]. rewrite !arr_ok by assumption. cbn [rbind].
  rewrite size_equal_same, Nat.eqb_refl. cbn [negb].
  cbn [map is_arr hd orb rbind]. rewrite ?andb_false_r. destruct (Nat.ltb_spec 1 (length sh)); [lia|]. rewrite ?andb_false_r. cbn [forallb negb andb slice_dims].
  eexists. split; [reflexivity|]. cbn [ad_spec ad_ishape ad_oshape]. split; [reflexivity|]. split; [reflexivity|apply app_nil_r].
Qed.
Lemma adv_new_rows_any dbg n k sh : 0 <= n -> (length sh <= 1)%nat ->
  exists r, adv_new dbg [n; k] (Some 0) [anarr sh; ASlice true] = Ok r /\ ad_spec r = [true; false] /\ ad_ishape r = sh /\ ad_oshape r = sh ++ [k].
Proof.
  intros Hn Hs. unfold adv_new. cbn [length Nat.eqb negb AdvModel.parse anarr]. rewrite !arr_ok by assumption. cbn [rbind].
  cbn [map is_arr hd orb rbind]. rewrite ?andb_false_r. destruct (Nat.ltb_spec 1 (length sh)); [lia|]. rewrite ?andb_false_r. cbn [forallb negb andb slice_dims].
  eexists. split; [reflexivity|]. cbn [ad_spec ad_ishape ad_oshape]. split; [reflexivity|]. split; reflexivity.
Qed.

(** Slices and elements of lists. *)
Lemma basic_slice n a b : 0 <= n < 2147483648 -> exists p, basic_new (shape_to_size [n]) [n] [8] true [ISlice (Slice a b 1)] = Ok (p, true) /\
  p_shape p = [Z.of_nat (length (chosen n (ISlice (Slice a b 1))))].
Proof.
  intros Hn. destruct (@basic_ok [n] [ISlice (Slice a b 1)]) as (p & c & E & Hp).
  { constructor; [exact eq_refl || (cbn; lia)|constructor]. } { apply packed1. } { constructor; [unfold SMAX; lia|constructor]. } { rewrite size1; lia. } { cbn. lia. }
  change (shape_to_strides [n]) with [8] in E. exists p. split; [|exact Hp]. rewrite E. do 2 f_equal. rewrite size1 in E by lia.
  unfold basic_new, BasicModel.parse in E. cbn [length Nat.ltb Nat.leb negb combine parse_loop sstep Z.eqb Z.ltb Z.compare] in E. destruct (Z.ltb_spec n 0); [lia|].
  destruct (fit _ n) as [f| |] eqn:Ef; try discriminate. cbn [rbind] in E. destruct (slice_size f) as [k| |]; try discriminate. cbn [rbind p_shape p_strides] in E.
  assert (Hst : sstep f = 1) by (unfold fit, mk_slice in Ef; cbn in Ef; injection Ef as <-; reflexivity). rewrite Hst in E. change (1 <? 1)%nat with false in E. cbn [rbind p_shape p_strides] in E.
  unfold is_contiguous in E. cbn [combine rev app contig] in E. rewrite orb_true_r in E. cbn [negb] in E. change (1 * 8 =? itemsize) with true in E. rewrite andb_false_r in E.
  destruct (k =? 0); injection E as _ <-; reflexivity.
Qed.
Lemma basic_int n i : 0 <= n < 2147483648 -> - n <= i < n -> exists p, basic_new (shape_to_size [n]) [n] [8] true [IInt i] = Ok (p, true) /\ p_shape p = [].
Proof.
  intros Hn Hi. rewrite size1 by lia. unfold basic_new, BasicModel.parse. cbn [length Nat.ltb Nat.leb negb combine parse_loop]. destruct (Z.ltb_spec n 0); [lia|].
  change (1 <? 1)%nat with false. cbv iota. destruct (_ || _) eqn:E. { apply orb_true_iff in E. rewrite Z.ltb_lt, Z.leb_le in E. destruct (Z.ltb_spec i 0); lia. }
  cbn [rbind p_shape p_strides]. eexists. split; reflexivity.
Qed.

(** * Construction step by step *)
Lemma bind_ok A B (x : py A) (f : A -> py B) m a m' r : x m = Ok (a, m') -> f a m' = r -> bind x f m = r.
Proof. intros H1 H2. unfold bind. now rewrite H1. Qed.
Lemma basic_step x i ci m c ps n p b : nth_error (p_syms m) x = Some (Sym c ps [n] true) -> not_adv c -> to_sidx i = Ok ci -> is_sym i = false ->
  basic_new (shape_to_size [n]) [n] [8] true [ci] = Ok (p, b) -> getitem x [i] m = emit (KBasic [ci]) [x] (p_shape p) b m.
Proof.
  intros Hx Hc Hi Hs Hb. assert (E : array_getitem x [i] m = emit (KBasic [ci]) [x] (p_shape p) b m).
  { unfold array_getitem. eapply bind_ok; [unfold look; rewrite Hx; reflexivity|]. cbn [s_shape length Nat.sub repeat app forallb]. rewrite Hs. cbn [negb andb].
    unfold basic. eapply bind_ok; [unfold look; rewrite Hx; reflexivity|]. cbn [rmap]. rewrite Hi. cbn [rbind]. eapply bind_ok; [reflexivity|].
    eapply bind_ok; [unfold lift; cbn [s_shape s_contig]; change (shape_to_strides [n]) with [8]; rewrite Hb; reflexivity|]. reflexivity. }
  unfold getitem. eapply bind_ok; [unfold look; rewrite Hx; reflexivity|]. cbn [s_cls s_pred]. destruct c; try exact E. destruct Hc.
Qed.
Lemma adv_step x ix ai m c ps sh ct r : nth_error (p_syms m) x = Some (Sym c ps sh ct) -> not_adv c -> length ix = length sh ->
  forallb (fun i => negb (is_sym i)) ix = false -> forallb (fun i => is_sym i || is_full i) ix = true -> (exists ss, looks (arrays ix) m = Ok (ss, m)) ->
  rmap (aix (shape_at m)) ix = Ok ai -> adv_new true sh (Some 0) ai = Ok r -> getitem x ix m = emit (KAdv (ad_spec r)) (x :: arrays ix) (ad_oshape r) true m.
Proof.
  intros Hx Hc Hl H1 H2 [ss Hss] Ha Hr. assert (E : array_getitem x ix m = emit (KAdv (ad_spec r)) (x :: arrays ix) (ad_oshape r) true m).
  { unfold array_getitem. eapply bind_ok; [unfold look; rewrite Hx; reflexivity|]. cbn [s_shape]. rewrite Hl, Nat.sub_diag. cbn [repeat]. rewrite app_nil_r, H1, H2.
    unfold advanced. eapply bind_ok; [unfold look; rewrite Hx; reflexivity|]. eapply bind_ok; [exact Hss|]. eapply bind_ok; [unfold lift; rewrite Ha; reflexivity|].
    eapply bind_ok; [unfold lift; cbn [s_shape]; rewrite Hr; reflexivity|]. reflexivity. }
  unfold getitem. eapply bind_ok; [unfold look; rewrite Hx; reflexivity|]. cbn [s_cls s_pred]. destruct c; try exact E. destruct Hc.
Qed.
Lemma require_square_ok n D m : (1 <= n)%nat -> matrix n n D -> Forall nonnegative D -> require_square D m = Ok (Z.of_nat n, m).
Proof.
  intros Hn HD H0. destruct (@runs_require_square n D m (fun a m' => a = Z.of_nat n /\ m' = m) Hn HD H0) as (a & m' & E & -> & ->); [auto|exact E].
Qed.

(** * Traveling salesperson *)
Definition tsp_pym (n : nat) (D : list (list num)) : pym := let N := Z.of_nat n in
  Pym [ Sym KList [] [N] true; Sym (KConst (concat D)) [] [N; N] true;
        Sym (KBasic [ISlice (Slice 0 (-1) 1)]) [0%nat] [N - 1] true; Sym (KBasic [ISlice (Slice 1 SMAX 1)]) [0%nat] [N - 1] true;
        Sym (KAdv [true; true]) [1; 2; 3]%nat [N - 1] true;
        Sym (KBasic [IInt (-1)]) [0%nat] [] true; Sym (KBasic [IInt 0]) [0%nat] [] true;
        Sym (KAdv [true; true]) [1; 5; 6]%nat [] true;
        Sym (KRed RAdd) [4%nat] [] true; Sym (KRed RAdd) [7%nat] [] true; Sym (KBin BPlus) [8; 9]%nat [] true ] (Some 10%nat) [].

Lemma init_length n : (1 <= n)%nat -> Z.of_nat (length (chosen (Z.of_nat n) (ISlice (Slice 0 (-1) 1)))) = Z.of_nat n - 1.
Proof. intros H. rewrite length_chosen. unfold hi, lo, py_norm. cbn [Z.ltb Z.compare]. lia. Qed.
Lemma tail_length n : (1 <= n)%nat -> Z.of_nat n < 2147483648 -> Z.of_nat (length (chosen (Z.of_nat n) (ISlice (Slice 1 SMAX 1)))) = Z.of_nat n - 1.
Proof. intros H H2. rewrite length_chosen. rewrite hi_max by (unfold SMAX; lia). unfold lo, py_norm. cbn [Z.ltb Z.compare]. lia. Qed.

Lemma tsp_builds n D : (1 <= n)%nat -> Z.of_nat (n * n) < 2147483648 -> matrix n n D -> Forall nonnegative D -> traveling_salesperson D no_model = Ok (0%nat, tsp_pym n D).
Proof.
  intros Hn Hs HD H0. assert (Hb : 0 <= Z.of_nat n < 2147483648) by nia. unfold traveling_salesperson. eapply bind_ok; [exact (require_square_ok no_model Hn HD H0)|].
  eapply bind_ok; [reflexivity|]. eapply bind_ok; [reflexivity|]. cbn [emit no_model p_syms p_obj p_cons length app].
  destruct (basic_slice 0 (-1) Hb) as (p1 & E1 & S1). rewrite init_length in S1 by exact Hn.
  destruct (basic_slice 1 SMAX Hb) as (p2 & E2 & S2). rewrite tail_length in S2 by (assumption || lia).
  destruct (@basic_int (Z.of_nat n) (-1) Hb) as (p3 & E3 & S3); [lia|]. destruct (@basic_int (Z.of_nat n) 0 Hb) as (p4 & E4 & S4); [lia|].
  destruct (@adv_new2 (Z.of_nat n) (Z.of_nat n) [Z.of_nat n - 1]) as (r1 & A1 & B1 & C1); [lia|lia|cbn; lia|]. destruct (@adv_new2 (Z.of_nat n) (Z.of_nat n) []) as (r2 & A2 & B2 & C2); [lia|lia|cbn; lia|].
  eapply bind_ok. { erewrite basic_step; [|reflexivity|exact I|reflexivity|reflexivity|exact E1]. rewrite S1. reflexivity. }
  eapply bind_ok. { erewrite basic_step; [|reflexivity|exact I|reflexivity|reflexivity|exact E2]. rewrite S2. reflexivity. }
  eapply bind_ok. { erewrite adv_step; [|reflexivity|exact I|reflexivity|reflexivity|reflexivity|eexists; reflexivity|reflexivity|exact A1]. rewrite B1, C1. reflexivity. }
  eapply bind_ok. { erewrite basic_step; [|reflexivity|exact I|reflexivity|reflexivity|exact E3]. rewrite S3. reflexivity. }
  eapply bind_ok. { erewrite basic_step; [|reflexivity|exact I|reflexivity|reflexivity|exact E4]. rewrite S4. reflexivity. }
  eapply bind_ok. { erewrite adv_step; [|reflexivity|exact I|reflexivity|reflexivity|reflexivity|eexists; reflexivity|reflexivity|exact A2]. rewrite B2, C2. reflexivity. }
  reflexivity.
Qed.
Lemma prod1 n : prod [n] = n.
Proof. cbn. lia. Qed.
Lemma wf_shape1 n : 0 <= n < 2147483648 -> wf_shape [n].
Proof. intros H. split; [constructor|]. split; [rewrite prod1; lia|]. lia. Qed.
Lemma wf_shape0 : wf_shape [].
Proof. split; [constructor|]. split; [reflexivity|exact I]. Qed.
Lemma wf_shape2 n k : 0 <= n -> 0 < k -> n * k < 2147483648 -> wf_shape [n; k].
Proof. intros H1 H2 H. split; [constructor; [exact H2|constructor]|]. split; [cbn; lia|lia]. Qed.
Lemma fits_concat r c D : matrix r c D -> fits [Z.of_nat r; Z.of_nat c] (concat D).
Proof. intros H. unfold fits, fits_len. cbn [dynamic]. destruct (Z.ltb_spec (Z.of_nat r) 0); [lia|]. rewrite (concat_len H). cbn. lia. Qed.

Lemma tsp_sound strict dbg n D : (1 <= n)%nat -> (dbg = true -> (2 <= n)%nat) -> Z.of_nat (n * n) < 2147483648 -> matrix n n D -> all_sound strict dbg (tsp_pym n D).
Proof.
  intros Hn H2 Hs HD. assert (Hb : 0 <= Z.of_nat n < 2147483648) by nia. assert (Hd : dynamic [Z.of_nat n] = false) by (cbn; lia). assert (Hd2 : dynamic [Z.of_nat n; Z.of_nat n] = false) by (cbn; lia).
  destruct (basic_slice 0 (-1) Hb) as (p1 & E1 & S1). rewrite init_length in S1 by exact Hn.
  destruct (basic_slice 1 SMAX Hb) as (p2 & E2 & S2). rewrite tail_length in S2 by (assumption || lia).
  destruct (@basic_int (Z.of_nat n) (-1) Hb) as (p3 & E3 & S3); [lia|]. destruct (@basic_int (Z.of_nat n) 0 Hb) as (p4 & E4 & S4); [lia|].
  destruct (@adv_new2_any dbg (Z.of_nat n) (Z.of_nat n) [Z.of_nat n - 1]) as (r1 & A1 & B1 & I1 & C1); [lia|lia|cbn; lia|].
  destruct (@adv_new2_any dbg (Z.of_nat n) (Z.of_nat n) []) as (r2 & A2 & B2 & I2 & C2); [lia|lia|cbn; lia|].
  assert (Hr : Forall (fun d => 0 <= d <= SMAX) [Z.of_nat n]) by (constructor; [unfold SMAX; lia|constructor]).
  assert (Hpre : forall l : list nat, forallb (fun y => y <? 11)%nat l = true -> Forall (fun y => (y < length (p_syms (tsp_pym n D)))%nat) l).
  { intros l H. apply Forall_forall. intros y Hy. rewrite forallb_forall in H. apply Nat.ltb_lt. now apply H. }
  unfold all_sound. cbn [tsp_pym p_syms].
  repeat apply Forall_cons; try apply Forall_nil; (split; [apply Hpre; reflexivity|]; cbn [s_cls s_pred s_shape]; split; [first [apply wf_shape0|apply wf_shape1; lia|apply wf_shape2; nia]|]).
  - now exists n.
  - now apply fits_concat.
  - split; [reflexivity|]. split; [exists p1; split; [exact E1|exact S1]|]. left. split; [exact Hd|]. split; [exact Hr|]. intros ->. rewrite prod1. specialize (H2 eq_refl). lia.
  - split; [reflexivity|]. split; [exists p2; split; [exact E2|exact S2]|]. left. split; [exact Hd|]. split; [exact Hr|]. intros ->. rewrite prod1. specialize (H2 eq_refl). lia.
  - split; [exact Hd2|]. exists r1. split; [exact A1|]. split; [exact C1|]. split; [reflexivity|]. rewrite I1. split; [repeat constructor|]. split; [now left|]. split; [intros _; cbn; lia|]. repeat constructor; cbn; lia.
  - split; [reflexivity|]. split; [exists p3; split; [exact E3|exact S3]|]. left. split; [exact Hd|]. split; [exact Hr|reflexivity].
  - split; [reflexivity|]. split; [exists p4; split; [exact E4|exact S4]|]. left. split; [exact Hd|]. split; [exact Hr|reflexivity].
  - split; [exact Hd2|]. exists r2. split; [exact A2|]. split; [exact C2|]. split; [reflexivity|]. rewrite I2. split; [repeat constructor|]. split; [now left|]. split; [reflexivity|]. repeat constructor.
  - split; [reflexivity|]. eexists. reflexivity.
  - split; [reflexivity|]. eexists. reflexivity.
  - split; [discriminate|]. split; [discriminate|]. reflexivity.
Qed.

(** * From the parts to the run *)
Lemma run_of strict dbg m : all_sound strict dbg m -> in_order m -> total m -> exists g, history (build m) = Ok g /\ locked m g /\ faithful strict dbg m g.
Proof. intros Hs Ho Ht. destruct (build_locked Ho) as (g & E & L). exists g. split; [exact E|]. split; [exact L|]. exact (run_faithful Hs Ht L). Qed.
Lemma shown_value strict dbg m g st dv : shown strict dbg m g st dv -> forall x v, yields m dv x v -> pin_of (nodes strict dbg m) g st x = Some (still v).
Proof.
  intros H x v Hy. destruct (H x (yields_array Hy)) as (w & Hw & E). now rewrite (yields_unique Hy Hw).
Qed.

Lemma tsp_total n D : (1 <= n)%nat -> Z.of_nat (n * n) < 2147483648 -> matrix n n D -> Forall nonnegative D -> total (tsp_pym n D).
Proof.
  intros Hn Hs HD H0 dv Hd. destruct (tsp_model Hn Hs HD H0) as (m & E & _ & _ & _ & H). rewrite (tsp_builds Hn Hs HD H0) in E. injection E as <-.
  apply (@cover_total _ [10%nat]); [reflexivity|]. intros x [<-|[]]. destruct (proj1 (Hd 0%nat _ eq_refl) eq_refl) as (p & Hp & Ep). cbn [s_shape hd] in Hp. rewrite Nat2Z.id in Hp.
  destruct (H dv p Hp Ep) as (x & [= <-] & Hy). eauto.
Qed.
Theorem tsp_run strict dbg n D : (1 <= n)%nat -> (dbg = true -> (2 <= n)%nat) -> Z.of_nat (n * n) < 2147483648 -> matrix n n D -> Forall nonnegative D ->
  exists m g obj, traveling_salesperson D no_model = Ok (0%nat, m) /\ history (build m) = Ok g /\ p_obj m = Some obj /\ faithful strict dbg m g /\
    forall st, running strict dbg m g st -> exists p, Permutation p (seq 0 n) /\ pin_of (nodes strict dbg m) g st 0%nat = Some (still (numbers p)) /\
      pin_of (nodes strict dbg m) g st obj = Some (still [tour D p]).
Proof.
  intros Hn H2 Hs HD H0. destruct (run_of (@tsp_sound strict dbg n D Hn H2 Hs HD) (orderb_ok (tsp_pym n D) eq_refl) (tsp_total Hn Hs HD H0)) as (g & E & L & Fa).
  destruct (tsp_model Hn Hs HD H0) as (m & E' & _ & (ps & ct & D0) & _ & H). rewrite (tsp_builds Hn Hs HD H0) in E'. injection E' as Em.
  assert (O : p_obj m = Some 10%nat) by (rewrite <- Em; reflexivity). pose proof (tsp_builds Hn Hs HD H0) as Eb. fold (tsp_pym n D) in Em. rewrite Em in *. clear Em L.
  exists m, g, 10%nat. split; [exact Eb|]. split; [exact E|]. split; [exact O|]. split; [exact Fa|]. intros st Hr.
  destruct Fa as (_ & Fa & _). destruct (Fa st Hr) as (dv & Hd & Sh). destruct (proj1 (Hd 0%nat _ D0) eq_refl) as (p & Hp & Ep). cbn [s_shape hd] in Hp. rewrite Nat2Z.id in Hp.
  exists p. split; [exact Hp|]. split.
  - apply (shown_value Sh). rewrite <- Ep. apply y_dec with (1 := D0). reflexivity.
  - destruct (H dv p Hp Ep) as (x & Hx & Hy). assert (x = 10%nat) by congruence. subst x. apply (shown_value Sh). exact Hy.
Qed.
