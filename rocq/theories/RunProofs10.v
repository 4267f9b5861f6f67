(** Whole models: job shop scheduling. *)
From Coq Require Import Relations Permutation.
From Verif Require Import Base Num SliceModel SliceSpec ShapeModel ShapeSpec StateDataModel NodeSpec NodeShape NodeLib BinaryModel BasicModel BasicSpec ViewModel ElemModel NaryModel ReduceModel BoundsModel
  PermModel AdvModel AdvSpec AdvSpec2 GraphModel GraphSpec ProposeModel ProposeSpec PyModel PySpec GenModel GenSpec DisjointModel DisjointSpec GroupModel GroupSpec PyProofs PyRules PyValues GenProofs GenProofs2 GenProofs3 GenProofs4 GenProofs7 RunModel RunSpec RunSpec2 RunProofs RunProofs2 RunProofs3 RunProofs4 RunProofs6 RunProofs7 RunProofs8 RunProofs9 FileProofs2 FileProofs3.
Set Implicit Arguments.

(** * A part of a row *)
Lemma basic_row n k i a b : (0 <= n)%Z -> (0 < k)%Z -> (n * k < 2147483648)%Z -> (0 <= i < n)%Z ->
  exists p, basic_new (shape_to_size [n; k]) [n; k] (shape_to_strides [n; k]) true [IInt i; ISlice (Slice a b 1)] = Ok (p, true) /\
  p_shape p = [Z.of_nat (length (chosen k (ISlice (Slice a b 1))))].
Proof.
  intros Hn Hk Hs Hi. assert (Hkb : (0 <= k < 2147483648)%Z) by nia. destruct (@basic_slice k a b Hkb) as (p & E & Hp).
  assert (Hst : shape_to_strides [n; k] = [8 * k; 8]%Z) by (unfold shape_to_strides, itemsize; cbn; f_equal; lia).
  rewrite Hst, size2 by lia. rewrite size1 in E by lia. unfold basic_new, BasicModel.parse in *. cbn [length Nat.ltb Nat.leb negb combine] in *.
  destruct (Z.ltb_spec k 0); [lia|]. destruct (Z.ltb_spec (n * k) 0); [nia|]. change (1 <? 1)%nat with false in E. change (2 <? 2)%nat with false. cbv iota in E |- *.
  cbn [parse_loop] in E |- *. rewrite (proj2 (Z.ltb_ge i 0)) by lia. cbv iota. rewrite ?(proj2 (Z.ltb_ge i 0)), (proj2 (Z.leb_gt n i)) by lia. cbn [orb]. cbv iota.
  lazymatch type of E with rbind ?e _ = _ => destruct e as [q| |] eqn:Eq; try discriminate end.
  cbn [rbind] in E |- *. cbn [p_shape p_strides]. destruct (is_contiguous (p_shape q) (p_strides q)) as [c|]; [|discriminate]. injection E as -> ->. eexists. split; [reflexivity|]. exact Hp.
Qed.
Lemma not_adv_getitem x ix m c ps sh ct : nth_error (p_syms m) x = Some (Sym c ps sh ct) -> not_adv c -> getitem x ix m = array_getitem x ix m.
Proof. intros Hx Hc. unfold getitem. eapply bind_ok; [unfold look; rewrite Hx; reflexivity|]. cbn [s_cls s_pred]. destruct c; try reflexivity. destruct Hc. Qed.

Section Rules.
Variables strict dbg : bool.
Notation Good := (Good strict dbg).
Notation made := (made strict dbg).
(** [x[i, a:b]] *)
Lemma t_row m B t y cy r k Py i a b ia ib x m' : Good m B t -> info m B t y cy [r; k] Py -> getitem y [PInt i; PSlice a b None] m = Ok (x, m') -> not_adv cy -> (0 < k)%Z -> (r * k < 2147483648)%Z -> (0 <= i < r)%Z ->
  mk_slice a b None = Ok (Slice ia ib 1) -> (dbg = true -> 0 < length (chosen k (ISlice (Slice ia ib 1)))) ->
  made m B t x m' (KBasic [IInt i; ISlice (Slice ia ib 1)]) [Z.of_nat (length (chosen k (ISlice (Slice ia ib 1))))] Py.
Proof.
  intros G Iy E Ha Hk Hs Hi Hm Hp. destruct (@basic_row r k i ia ib) as (p & Hb & Hsh); try lia.
  pose proof Iy as ((ps & Ey) & _). rewrite (@not_adv_getitem _ _ _ _ _ _ _ Ey Ha) in E. unfold array_getitem in E. unfold bind in E at 1. unfold look in E at 1. rewrite Ey in E. cbv beta iota in E. cbn [s_shape length Nat.sub repeat app forallb is_sym negb andb] in E.
  rewrite <- Hsh. refine (@t_basic strict dbg m B t y _ cy [r; k] Py _ p x m' G Iy E _ _ _ Hb _ _).
  - cbn. lia.
  - constructor; [unfold SMAX; nia|]. constructor; [unfold SMAX; nia|constructor].
  - cbn [rmap to_sidx rbind]. rewrite Hm. reflexivity.
  - rewrite Hsh. apply wf_shape1. pose proof (@ViewProofs2.chosen_len k (Slice ia ib 1)). nia.
  - rewrite Hsh, prod1. intros D. specialize (Hp D). lia.
Qed.
(** [x[i, a]] with an index array *)
Lemma t_items m B t y cy r k Py i z cz q x m' : Good m B t -> info m B t y cy [r; k] Py -> info m B t z cz [q] (index_of k) -> getitem y [PInt i; PArr z] m = Ok (x, m') -> not_adv cy -> (0 < k)%Z -> (r * k < 2147483648)%Z -> (0 <= i < r)%Z ->
  (0 <= q < 2147483648)%Z -> exists B' , Good m' B' t /\ grow m B m' B' /\ exists c, info m' B' t x c [q] Py.
Proof.
  intros G Iy Iz E Ha Hk Hs Hi Hq. pose proof Iy as ((ps & Ey) & _). rewrite (@not_adv_getitem _ _ _ _ _ _ _ Ey Ha) in E. unfold array_getitem in E. unfold bind in E at 1. unfold look in E at 1. rewrite Ey in E. cbv beta iota in E.
  cbn [s_shape length Nat.sub repeat app forallb is_sym is_full negb andb orb map split_basic split_adv flat_map] in E. take E.
  assert (Hl : Z.of_nat (length (chosen k (ISlice (Slice 0 SMAX 1)))) = k).
  { rewrite <- (Z2Nat.id k) by lia. rewrite length_chosen, hi_max by (unfold SMAX; nia). unfold lo, py_norm. cbn [Z.ltb Z.compare]. lia. }
  destruct (@basic_row r k i 0 SMAX) as (p & Hb & Hsh); try lia. rewrite Hl in Hsh.
  destruct (@t_basic strict dbg m B t y _ cy [r; k] Py [IInt i; ISlice (Slice 0 SMAX 1)] p _ _ G Iy E0) as (B1 & G1 & H1 & _ & I1); try reflexivity; try exact Hb.
  { cbn. lia. } { constructor; [unfold SMAX; nia|]. constructor; [unfold SMAX; nia|constructor]. } { rewrite Hsh. apply wf_shape1. nia. } { rewrite Hsh, prod1. lia. }
  rewrite Hsh in I1. apply (info_grow H1) in Iz.
  destruct (@t_adv strict dbg _ B1 t _ [PArr z] _ [k] Py [q] [q] _ _ G1 I1 E) as (B2 & G2 & H2 & _ & I2); try (cbn; lia).
  { constructor; [|constructor]. eauto. } { repeat constructor. } { intros d'. destruct (@adv_new1_any d' k [q]) as (A' & X1 & X2 & X3 & X4); [lia|cbn; lia|]. exists A'. auto. } { now apply wf_shape1. } { now left. }
  exists B2. split; [exact G2|]. split; [eapply grow_trans; eauto|]. eauto.
Qed.
(** [x[a, :]] *)
Lemma t_rows m B t y cy r k Py z cz q x m' : Good m B t -> info m B t y cy [r; k] Py -> info m B t z cz [q] (index_of r) -> getitem y [PArr z; full] m = Ok (x, m') -> not_adv cy -> (0 <= r)%Z -> (0 < k)%Z -> (0 <= q)%Z -> (q * k < 2147483648)%Z ->
  made m B t x m' (KAdv [true; false]) [q; k] Py.
Proof.
  intros G Iy Iz E Ha Hr Hk Hq Hs. pose proof Iy as ((ps & Ey) & _). rewrite (@not_adv_getitem _ _ _ _ _ _ _ Ey Ha) in E. unfold array_getitem in E. unfold bind in E at 1. unfold look in E at 1. rewrite Ey in E. cbv beta iota in E.
  cbn [s_shape length Nat.sub repeat app forallb is_sym is_full full negb andb orb] in E.
  refine (@t_adv strict dbg m B t y [PArr z; full] cy [r; k] Py [q] [q; k] x m' G Iy E _ _ _ _ _ _ _).
  - cbn. lia.
  - cbn. lia.
  - constructor; [|constructor]. eauto.
  - constructor; [now left|]. constructor; [now right|constructor].
  - intros d'. destruct (@adv_new_rows_any d' r k [q]) as (A' & X1 & X2 & X3 & X4); [lia|cbn; lia|]. exists A'. auto.
  - apply wf_shape2; lia.
  - now left.
Qed.
End Rules.

Section Jobs.
Variables strict dbg : bool.
Variables times : list (list Z).
Variables M : list (list nat).
Variable one_based : nat.
Variable bound : option Z.
Variables jobs k : nat.
Let T := map (map zq) times.
Let machines := map (map (fun i => Z.of_nat (one_based + i))) M.
Hypothesis Hj : 1 <= jobs.
Hypothesis Hk : 1 <= k.
Hypothesis Hdbg : dbg = true -> 2 <= k.
Hypothesis Hsz : (Z.of_nat (jobs * jobs * k) < 2147483648)%Z.
Hypothesis HT : matrix jobs k T.
Hypothesis HT0 : Forall (Forall (fun t => 0 <= t)%Z) times.
Hypothesis HM1 : length M = jobs.
Hypothesis HM : Forall (fun row => Permutation row (seq 0 k)) M.
Hypothesis Hone : one_based = 0 \/ one_based = 1.

Lemma require_matrix_ok r c D m : 1 <= r -> matrix r c D -> Forall nonnegative D -> require_matrix D m = Ok ((Z.of_nat r, Z.of_nat c), m).
Proof.
  intros Hr HD H0. destruct (@runs_require_matrix r c D m (fun a m' => a = (Z.of_nat r, Z.of_nat c) /\ m' = m) Hr HD H0) as (a & m' & E & -> & ->); [auto|exact E].
Qed.
Lemma machine_indices : Forall (index_of (Z.of_nat k)) (concat (map numbers M)).
Proof.
  apply Forall_forall. intros q Hq. apply in_concat in Hq. destruct Hq as (l & Hl & Hq). apply in_map_iff in Hl. destruct Hl as (row & <- & Hrow). unfold numbers in Hq. apply in_map_iff in Hq. destruct Hq as (i & <- & Hi).
  rewrite Forall_forall in HM. apply (Permutation_in _ (HM _ Hrow)) in Hi. apply in_seq in Hi. exists i. split; [lia|reflexivity].
Qed.
Lemma machines_rows : matrix jobs k (map numbers M).
Proof. split; [now rewrite map_length|]. rewrite Forall_map. eapply Forall_impl; [|exact HM]. cbn beta. intros r P. unfold numbers. now rewrite map_length, (Permutation_length P), seq_length. Qed.

Lemma js_good m : job_shop_scheduling times machines bound no_model = Ok (2, m) -> exists B, Good strict dbg m B [].
Proof.
  intros E. unfold job_shop_scheduling in E. fold T in E.
  assert (HTn : Forall nonnegative T).
  { unfold T. rewrite Forall_map. eapply Forall_impl; [|exact HT0]. cbv beta. intros r Hr. unfold nonnegative. rewrite Forall_map.
    eapply Forall_impl; [|exact Hr]. cbv beta. intros t Ht. change 0%Qc with (zq 0). now apply zq_le. }
  destruct (machines_matrix Hj Hk Hsz HM1 HM Hone) as [MM MN].
  take E. rewrite (require_matrix_ok _ Hj HT HTn) in E0. injection E0 as <- <-. take E. unfold machines in E0. rewrite (require_matrix_ok _ Hj MM MN) in E0. injection E0 as <- <-.
  take E. apply unless_inv in E0. destruct E0 as [-> _]. take E. apply unless_inv in E0. destruct E0 as [-> _]. cbv zeta in E. unfold machines in E. rewrite (machines_from_0 Hj Hk Hsz HM1 HM Hone), !Nat2Z.id in E.
  take E. apply unless_inv in E0. destruct E0 as [-> _]. rewrite zmatrix_machines in E. replace (zmatrix times) with (concat T) in E by (unfold T, zmatrix; now rewrite concat_map).
  take E. assert (m0 = no_model) as -> by (destruct bound as [u|]; [destruct (u <? 1)%Z; [discriminate|]|]; now injection E0 as _ <-). clear E0.
  assert (Hjk : (Z.of_nat jobs * Z.of_nat k < 2147483648)%Z) by nia. assert (W : wf_shape [Z.of_nat jobs; Z.of_nat k]) by (apply wf_shape2; lia). pose proof (good_empty strict dbg) as G.
  take E. destruct (t_const (P := any) G E0 W) as (B1 & G1 & H1 & X1 & I1); [now apply fits_concat|apply Forall_forall; intros; exact I|]. clear E0.
  take E. destruct (t_const (P := index_of (Z.of_nat k)) G1 E0 W) as (B2 & G2 & H2 & X2 & I2); [apply fits_concat, machines_rows|apply machine_indices|]. clear E0. apply (info_grow H2) in I1.
  take E. destruct (t_integer _ _ G2 E0 W) as (B3 & G3 & H3 & X3 & I3); [cbn; lia|cbn; nia|]. clear E0. apply (info_grow H3) in I1, I2. eapply info_only with (Q := any) in I3; [|intros q _; exact I].
  take E. destruct (t_bin (sh := [Z.of_nat jobs; Z.of_nat k]) G3 I3 I1 E0) as (B4 & G4 & H4 & X4 & I4); [discriminate|discriminate|apply bin_new_same; rewrite size2; nia|exact W|now left|]. clear E0. apply (info_grow H4) in I1, I2, I3.
  take E. destruct (t_red _ G4 I4 E0) as (B5 & G5 & H5 & X5 & I5). clear E0. apply (info_grow H5) in I1, I2, I3, I4.
  take E. destruct (t_minimize _ G5 E0) as (G6 & H6 & _ & _). clear E0. apply (info_grow H6) in I1, I2, I3, I4. clear I5.
  take E. pose (Inv := fun (_ : list nat) (_ : unit) m' => exists B', Good strict dbg m' B' [] /\ grow m5 B5 m' B').
  match type of E0 with pfor (seq 0 jobs) ?f tt ?ma = Ok (?u, ?mb) => assert (HI : Inv ([] ++ seq 0 jobs) u mb); [refine (@pfor_inv _ _ Inv f [] (seq 0 jobs) tt ma u mb _ _ E0)|] end.
  { exists B5. split; [exact G6|apply grow_refl]. }
  { intros done j [] ma [] mb (rest & Hb) (Ba & Ga & Hga) Eb. assert (Hji : In j (seq 0 jobs)) by (cbn [app] in Hb; rewrite Hb; apply in_or_app; right; now left). apply in_seq in Hji.
    pose proof (info_grow Hga I2) as J2. pose proof (info_grow Hga I3) as J3. pose proof (info_grow Hga I4) as J4. cbv zeta in Eb.
    take Eb. destruct (t_row (ia := 0%Z) (ib := (-1)%Z) Ga J2 E1) as (Bb & Gb & Hgb & _ & Ib); try lia; try reflexivity; try exact I; [intros D; specialize (Hdbg D); apply Nat2Z.inj_lt; rewrite init_length; lia|]. rewrite init_length in Ib by exact Hk. clear E1. apply (info_grow Hgb) in J2, J3, J4.
    take Eb. destruct (t_items Gb J4 Ib E1) as (Bc & Gc & Hgc & cc & Ic); try lia; try exact I; []. clear E1. apply (info_grow Hgc) in J2, J3, J4.
    take Eb. destruct (t_row (ia := 1%Z) (ib := SMAX) Gc J2 E1) as (Bd & Gd & Hgd & _ & Id); try lia; try reflexivity; try exact I; [intros D; specialize (Hdbg D); apply Nat2Z.inj_lt; rewrite tail_length; nia|]. rewrite tail_length in Id by nia. clear E1. apply (info_grow Hgd) in J3, Ic.
    take Eb. destruct (t_items Gd J3 Id E1) as (Be & Ge & Hge & ce & Ie); try lia; try exact I; []. clear E1. apply (info_grow Hge) in Ic.
    take Eb. destruct (t_bin (sh := [(Z.of_nat k - 1)%Z]) Ge Ic Ie E1) as (Bf & Gf & Hgf & _ & If); [discriminate|discriminate|apply bin_new_same; rewrite size1; lia|apply wf_shape1; nia|now left|]. clear E1.
    take Eb. destruct (t_red _ Gf If E1) as (Bg & Gg & Hgg & _ & Ig). clear E1.
    destruct (t_constrain _ Gg Eb) as [Gh Hgh]. exists Bg. split; [exact Gh|]. repeat (eapply grow_trans; [eassumption|]). apply grow_refl. }
  destruct HI as (B7 & G7 & H7). clear E0. apply (info_grow H7) in I3, I4.
  set (ps := pairs jobs) in *. assert (NP : (Z.of_nat (length ps) * Z.of_nat k < 2147483648)%Z) by (pose proof (pairs_length jobs) as PL; fold ps in PL; clear - PL Hsz Hk; nia).
  assert (Wp : wf_shape [zlen ps]) by (apply wf_shape1; unfold zlen; nia). assert (Wk : wf_shape [zlen ps; Z.of_nat k]) by (apply wf_shape2; unfold zlen; lia).
  assert (Hin : forall f : nat * nat -> nat, (forall u v, u < v < jobs -> f (u, v) < jobs) -> Forall (index_of (Z.of_nat jobs)) (map (fun p => zq (Z.of_nat (f p))) ps)).
  { intros f Hf. apply Forall_forall. intros q Hq. apply in_map_iff in Hq. destruct Hq as ([u v] & <- & Hp). apply in_pairs in Hp. exists (f (u, v)). split; [specialize (Hf u v Hp); lia|reflexivity]. }
  assert (Hft : forall f : nat * nat -> num, fits [zlen ps] (map f ps)) by (intros f; unfold fits, fits_len, zlen; cbn [dynamic]; destruct (Z.ltb_spec (Z.of_nat (length ps)) 0); [lia|]; rewrite map_length; cbn; lia).
  take E. destruct (t_const (P := index_of (Z.of_nat jobs)) G7 E0 Wp) as (B8 & G8 & H8 & X8 & I8); [apply Hft|apply (Hin fst); cbn; lia|]. clear E0. apply (info_grow H8) in I3, I4.
  take E. destruct (t_const (P := index_of (Z.of_nat jobs)) G8 E0 Wp) as (B9 & G9 & H9 & X9 & I9); [apply Hft|apply (Hin snd); cbn; lia|]. clear E0. apply (info_grow H9) in I3, I4, I8.
  assert (Hz : (0 <= zlen ps)%Z) by (unfold zlen; lia). assert (Hzk : (zlen ps * Z.of_nat k < 2147483648)%Z) by exact NP.
  assert (Hsame : BinaryModel.bin_new [zlen ps; Z.of_nat k] [zlen ps; Z.of_nat k] = Ok [zlen ps; Z.of_nat k]) by (apply bin_new_same; rewrite size2; nia).
  take E. destruct (t_rows G9 I4 I8 E0) as (C1 & K1 & L1 & _ & A1); try lia; try exact I; []. clear E0. apply (info_grow L1) in I3, I4, I8, I9.
  take E. destruct (t_rows K1 I3 I9 E0) as (C2 & K2 & L2 & _ & A2); try lia; try exact I; []. clear E0. apply (info_grow L2) in I3, I4, I8, I9, A1.
  take E. destruct (t_bin (sh := [zlen ps; Z.of_nat k]) K2 A1 A2 E0) as (C3 & K3 & L3 & _ & A3); [discriminate|discriminate|exact Hsame|exact Wk|now left|]. clear E0. apply (info_grow L3) in I3, I4, I8, I9.
  take E. destruct (t_rows K3 I4 I9 E0) as (C4 & K4 & L4 & _ & A4); try lia; try exact I; []. clear E0. apply (info_grow L4) in I3, I8, A3.
  take E. destruct (t_rows K4 I3 I8 E0) as (C5 & K5 & L5 & _ & A5); try lia; try exact I; []. clear E0. apply (info_grow L5) in A3, A4.
  take E. destruct (t_bin (sh := [zlen ps; Z.of_nat k]) K5 A4 A5 E0) as (C6 & K6 & L6 & _ & A6); [discriminate|discriminate|exact Hsame|exact Wk|now left|]. clear E0. apply (info_grow L6) in A3.
  take E. destruct (t_bin (sh := [zlen ps; Z.of_nat k]) K6 A3 A6 E0) as (C7 & K7 & L7 & _ & A7); [discriminate|discriminate|exact Hsame|exact Wk|now left|]. clear E0.
  take E. destruct (t_red _ K7 A7 E0) as (C8 & K8 & L8 & _ & A8). clear E0.
  take E. destruct (t_constrain _ K8 E0) as [K9 _]. injection E as _ <-. eauto.
Qed.
End Jobs.

Lemma rows_of_flat k : forall r (v : list num), length v = r * k -> exists St, matrix r k St /\ v = concat St.
Proof.
  induction r as [|r IH]; intros v Hv. { destruct v; [|discriminate]. exists []. split; [split; [reflexivity|constructor]|reflexivity]. }
  destruct (IH (skipn k v)) as (St & [H1 H2] & E). { rewrite skipn_length. lia. }
  exists (firstn k v :: St). split; [split; [cbn; lia|constructor; [rewrite firstn_length; lia|exact H2]]|]. cbn [concat]. rewrite <- E. symmetry. apply firstn_skipn.
Qed.
Theorem job_shop_run strict dbg jobs k times M one_based bound : let T := map (map zq) times in let upper := horizon times bound in
  1 <= jobs -> 1 <= k -> (dbg = true -> 2 <= k) -> (Z.of_nat (jobs * jobs * k) < 2147483648)%Z -> matrix jobs k T -> Forall (Forall (fun t => 0 <= t)%Z) times ->
  length M = jobs -> Forall (fun row => Permutation row (seq 0 k)) M -> one_based = 0 \/ one_based = 1 -> (forall u, bound = Some u -> (1 <= u)%Z) -> (upper <= 2000000000)%Z ->
  exists m g obj, job_shop_scheduling times (map (map (fun i => Z.of_nat (one_based + i))) M) bound no_model = Ok (2, m) /\ history (build m) = Ok g /\ p_obj m = Some obj /\ faithful strict dbg m g /\
    forall st, running strict dbg m g st -> exists St e, matrix jobs k St /\ Forall (Forall (whole 0 upper)) St /\
      pin_of (nodes strict dbg m) g st 2 = Some (still (concat St)) /\ last_end T St jobs k e /\ pin_of (nodes strict dbg m) g st obj = Some (still [e]) /\
      exists sat, Forall2 (fun c b => pin_of (nodes strict dbg m) g st c = Some (still [b2q b])) (p_cons m) sat /\
        (Forall (fun b => b = true) sat <-> GenSpec.in_order T St M /\ no_overlap T St jobs k).
Proof.
  intros T upper Hj Hk Hd Hs HT HT0 HM1 HM Hone Hb Hu. destruct (@job_shop_model jobs k times M one_based bound Hj Hk Hs HT HT0 HM1 HM Hone Hb Hu) as (m & E & _ & (ps & ct & Ed) & H).
  destruct (@js_good strict dbg times M one_based bound jobs k Hj Hk Hd Hs HT HT0 HM1 HM Hone m E) as (B & G). destruct (good_runs G) as (g & Eg & L & Fa).
  assert (Hobj : exists obj, p_obj m = Some obj) by (destruct (H (fun _ => concat T) T HT eq_refl) as [(e & _ & x & Hx & _) _]; eauto).
  destruct Hobj as [obj Ho]. exists m, g, obj. split; [exact E|]. split; [exact Eg|]. split; [exact Ho|]. split; [exact Fa|]. intros st Hr. destruct Fa as (_ & Fa & _). destruct (Fa st Hr) as (dv & Hdom & Sh).
  destruct (Hdom _ _ Ed) as [Hal _]. cbn [s_cls s_shape allowed decided_cls] in Hal. specialize (Hal eq_refl). destruct Hal as [Hlen Hw].
  destruct (@rows_of_flat k jobs (dv 2)) as (St & HSt & Est). { replace (prod [Z.of_nat jobs; Z.of_nat k]) with (Z.of_nat (jobs * k)) in Hlen by (clear; cbn; lia). clear - Hlen. lia. }
  destruct (H dv St HSt Est) as [(e & He & x & Hx & Hy) (bs & Hbs & Hf)]. exists St, e. split; [exact HSt|]. split.
  { rewrite Est in Hw. apply Forall_forall. intros row Hrow. apply Forall_forall. intros q Hq. rewrite Forall_forall in Hw. apply Hw. apply in_concat. eauto. }
  split; [apply (shown_value Sh); rewrite <- Est; apply y_dec with (1 := Ed); reflexivity|]. split; [exact He|]. split; [apply (shown_value Sh); congruence|].
  exists bs. split; [|exact Hf]. clear - Hbs Sh. induction Hbs; constructor; auto. now apply (shown_value Sh).
Qed.
