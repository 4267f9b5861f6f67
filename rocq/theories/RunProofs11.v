(** Whole models: constrained quadratic models. *)
From Coq Require Import Relations Permutation.
From Verif Require Import Base Num SliceModel ShapeModel ShapeSpec StateDataModel NodeSpec NodeShape NodeLib BinaryModel BasicModel ViewModel ElemModel NaryModel ReduceModel BoundsModel
  PermModel AdvModel AdvSpec AdvSpec2 QuadModel QuadSpec GraphModel GraphSpec ProposeModel ProposeSpec PyModel PySpec GenModel GenSpec PyProofs PyRules PyValues GenProofs GenProofs7 CqmModel CqmSpec CqmProofs CqmProofs2
  RunModel RunSpec RunSpec2 RunProofs RunProofs2 RunProofs3 RunProofs4 RunProofs6 RunProofs7 RunProofs8 RunProofs9 RunProofs10 FileProofs2 FileProofs3.
Set Implicit Arguments.

Ltac emitted G := lazymatch goal with E : emit ?c ?ps ?sh _ ?m = Ok (?x, ?m0) |- RunProofs7.made ?s ?d _ ?B ?t _ _ _ _ ?P => destruct (@good_emit s d m B t c ps sh P x m0 G) as (B0 & G0 & Hg0 & Hx0 & Hi0 & _); [| | | |exact E|exists B0; split; [exact G0|]; split; [exact Hg0|]; split; [exact Hx0|]; now apply Hi0] end.
Section Rules.
Variables strict dbg : bool.
Notation Good := (Good strict dbg).
Notation made := (made strict dbg).
Lemma t_binary m B t sh x m' : Good m B t -> binary sh m = Ok (x, m') -> wf_shape sh -> dynamic sh = false -> (0 <= prod sh)%Z -> made m B t x m' KBinary sh (whole 0 1).
Proof.
  intros G E W D P0. unfold binary in E. destruct (existsb _ _); [discriminate|]. emitted G.
  - constructor.
  - reflexivity.
  - split; [constructor|]. split; [exact W|]. cbn [s_cls s_pred s_shape]. auto.
  - split; [discriminate|]. cbn [s_cls s_pred]. rewrite upd_same. intros q Hq. exact Hq.
Qed.
Lemma t_pick m B t y cy r Py z cz q x m' : Good m B t -> info m B t y cy [r] Py -> info m B t z cz [q] (index_of r) -> getitem y [PArr z] m = Ok (x, m') -> not_adv cy -> (0 <= r < 2147483648)%Z -> (0 <= q < 2147483648)%Z ->
  made m B t x m' (KAdv [true]) [q] Py.
Proof.
  intros G Iy Iz E Ha Hr Hq. pose proof Iy as ((ps & Ey) & _). rewrite (@not_adv_getitem _ _ _ _ _ _ _ Ey Ha) in E. unfold array_getitem in E. unfold bind in E at 1. unfold look in E at 1. rewrite Ey in E. cbv beta iota in E.
  cbn [s_shape length Nat.sub repeat app forallb is_sym is_full full negb andb orb] in E.
  refine (@t_adv strict dbg m B t y [PArr z] cy [r] Py [q] [q] x m' G Iy E _ _ _ _ _ _ _).
  - cbn. lia.
  - cbn. lia.
  - constructor; [|constructor]. eauto.
  - constructor; [now left|constructor].
  - intros d'. destruct (@adv_new1_any d' r [q]) as (A' & X1 & X2 & X3 & X4); [lia|cbn; lia|]. exists A'. auto.
  - apply wf_shape1; lia.
  - now left.
Qed.
Lemma t_quad m B t lg y cy n Py quad lin x m' : Good m B t -> info m B t y cy [Z.of_nat n] Py -> quadratic_model lg y quad lin m = Ok (x, m') -> length lin <= n -> Forall (in_coords n) quad ->
  exists q, made m B t x m' (KQuad lg q) [] any.
Proof.
  intros G Iy E Hl Hq. unfold quadratic_model in E. destruct (info_look Iy) as [py Ly]. unfold bind in E at 1. rewrite Ly in E. cbv beta iota in E. cbn [s_shape] in E. destruct (dynamic _); [discriminate|].
  repeat match type of E with (if ?b then _ else _) _ = _ => destruct b; [discriminate|] end. rewrite Nat2Z.id in E. destruct (@coords_ok lg n quad lin Hl Hq) as (q & b & Eq & Hn & _ & _ & (q0 & F1 & F2 & F3) & _). exists q.
  unfold bind, lift in E. rewrite Eq in E. cbn [rbind] in E. destruct (qn_new _ _); try discriminate. cbn [rbind] in E. emitted G.
  - repeat constructor; eapply info_late; eauto.
  - discriminate.
  - split; [repeat constructor; eapply info_lt; eauto|]. split; [apply wf_shape0|]. cbn [s_cls s_pred s_shape]. split; [reflexivity|]. rewrite (info_shape Iy), Hn. split; [reflexivity|]. exists q0, (coord_ops lg quad lin). rewrite Hn. auto.
  - split; [intros _; repeat constructor; eapply info_array; eauto|]. cbn [s_cls s_pred]. rewrite upd_same. intros p. exact I.
Qed.

Variables (n x : nat).
Hypothesis Hn : (Z.of_nat n < 2147483648)%Z.
Lemma t_part m B q y m' : Good m B [] -> info m B [] x KBinary [Z.of_nat n] (whole 0 1) -> CqmSpec.proper n q -> cqm_part x q m = Ok (y, m') ->
  exists B' c, Good m' B' [] /\ grow m B m' B' /\ info m' B' [] y c [] any.
Proof.
  intros G Ix (Hnd & Hv & Hl & Hq) E. assert (Hk : length (d_vars q) <= n) by (now apply nodup_below). unfold cqm_part, zlen in E. rewrite Hl in E. set (k := length (d_vars q)) in *.
  assert (W : wf_shape [Z.of_nat k]) by (apply wf_shape1; lia).
  assert (Fit : forall v : list num, length v = k -> fits [Z.of_nat k] v) by (intros v Ev; unfold fits, fits_len; cbn; destruct (Z.ltb_spec (Z.of_nat k) 0); lia).
  take E. destruct (t_const (P := index_of (Z.of_nat n)) G E0 W) as (B1 & G1 & H1 & _ & I1).
  { apply Fit. apply map_length. } { rewrite Forall_map. eapply Forall_impl; [|exact Hv]. cbv beta. intros v Hvn. exists v. split; [lia|reflexivity]. }
  clear E0. apply (info_grow H1) in Ix.
  take E. destruct (t_const (P := any) G1 E0 W) as (B2 & G2 & H2 & _ & I2); [now apply Fit|apply Forall_forall; intros; exact I|]. clear E0. apply (info_grow H2) in Ix, I1.
  take E. assert (Hout : exists B3 c, Good m2 B3 [] /\ grow m1 B2 m2 B3 /\ info m2 B3 [] x2 c [] any).
  { destruct (d_quad q) as [|t0 quad] eqn:Eq.
    - take E0. destruct (t_pick G2 Ix I1 E1) as (C1 & K1 & L1 & _ & A1); [exact I|lia|lia|]. clear E1. apply (info_grow L1) in I2.
      take E0. destruct (t_bin (sh := [Z.of_nat k]) K1 I2 A1 E1) as (C2 & K2 & L2 & _ & A2); [discriminate|discriminate|apply bin_new_same; rewrite size1; lia|exact W|now left|]. clear E1.
      destruct (t_red _ K2 A2 E0) as (C3 & K3 & L3 & _ & A3). exists C3, (KRed RAdd). split; [exact K3|]. split; [|exact A3]. repeat (eapply grow_trans; [eassumption|]). apply grow_refl.
    - rewrite <- Eq in *. take E0. destruct (t_pick G2 Ix I1 E1) as (C1 & K1 & L1 & _ & A1); [exact I|lia|lia|]. clear E1.
      destruct (t_quad _ _ K1 A1 E0) as (qq & C2 & K2 & L2 & _ & A2); [lia| |].
      { apply Forall_map. eapply Forall_impl; [|exact Hq]. intros [[a b] d] [X1 X2]. unfold in_coords. cbn [fst snd] in *. lia. }
      exists C2, (KQuad true qq). split; [exact K2|]. split; [|exact A2]. repeat (eapply grow_trans; [eassumption|]). apply grow_refl. }
  clear E0. destruct Hout as (B3 & c & G3 & H3 & I3). destruct (qeqb _ _).
  - injection E as <- <-. exists B3, c. split; [exact G3|]. split; [|exact I3]. repeat (eapply grow_trans; [eassumption|]). apply grow_refl.
  - take E. destruct (t_const (P := any) G3 E0 wf_shape0) as (B4 & G4 & H4 & _ & I4); [reflexivity|repeat constructor|]. clear E0. apply (info_grow H4) in I3.
    destruct (t_bin (sh := []) G4 I3 I4 E) as (B5 & G5 & H5 & _ & I5); [discriminate|discriminate|reflexivity|apply wf_shape0|now left|].
    exists B5, (KBin BPlus). split; [exact G5|]. split; [|exact I5]. repeat (eapply grow_trans; [eassumption|]). apply grow_refl.
Qed.
Lemma t_cqm_constraint m B k u m' : Good m B [] -> info m B [] x KBinary [Z.of_nat n] (whole 0 1) -> CqmSpec.proper n (fst (fst k)) -> cqm_constraint x k m = Ok (u, m') ->
  exists B', Good m' B' [] /\ grow m B m' B'.
Proof.
  destruct k as [[q s] b]. cbn [fst]. intros G Ix Hp E. unfold cqm_constraint in E. take E. destruct (t_part G Ix Hp E0) as (B1 & c & G1 & H1 & I1). clear E0.
  take E. destruct (t_const (P := any) G1 E0 wf_shape0) as (B2 & G2 & H2 & _ & I2); [reflexivity|repeat constructor|]. clear E0. apply (info_grow H2) in I1.
  take E. assert (exists B3, Good m2 B3 [] /\ grow m1 B2 m2 B3) as (B3 & G3 & H3).
  { destruct s; [destruct (t_bin (sh := []) G2 I1 I2 E0) as (B3 & G3 & H3 & _)|destruct (t_bin (sh := []) G2 I1 I2 E0) as (B3 & G3 & H3 & _)|destruct (t_bin (sh := []) G2 I2 I1 E0) as (B3 & G3 & H3 & _)]; try discriminate; try reflexivity; try apply wf_shape0; try (now left); eauto. }
  destruct (t_constrain _ G3 E) as [G4 H4]. exists B3. split; [exact G4|]. repeat (eapply grow_trans; [eassumption|]). apply grow_refl.
Qed.
End Rules.

Lemma cqm_good strict dbg c r m : c_binary c <> [] -> proper_cqm c -> from_cqm c no_model = Ok (r, m) -> exists B, Good strict dbg m B [].
Proof.
  intros Hne (Hb & Ho & Hc & Hn) E. unfold from_cqm in E. take E. apply unless_inv in E0. destruct E0 as [-> _]. destruct (Nat.eqb_spec (length (c_binary c)) 0) as [E0|_]; [destruct (c_binary c); [contradiction|discriminate]|]. unfold zlen in E. set (n := length (c_binary c)) in *.
  take E. destruct (t_binary (good_empty strict dbg) E0) as (B1 & G1 & H1 & _ & I1); [apply wf_shape1; lia|cbn; destruct (Z.ltb_spec (Z.of_nat n) 0); [lia|reflexivity]|cbn; lia|]. clear E0.
  take E. destruct (t_part Hn G1 I1 Ho E0) as (B2 & c2 & G2 & H2 & I2). clear E0. apply (info_grow H2) in I1.
  take E. destruct (t_minimize _ G2 E0) as (G3 & H3 & _). clear E0. apply (info_grow H3) in I1.
  take E. injection E as _ <-. pose (Inv := fun (_ : list (dqm * sense * num)) (_ : unit) m' => exists B', Good strict dbg m' B' [] /\ grow m2 B2 m' B').
  assert (HI : Inv ([] ++ c_cons c) x3 m3).
  { refine (@pfor_inv _ _ Inv _ [] (c_cons c) tt m2 x3 m3 _ _ E0).
    - exists B2. split; [exact G3|apply grow_refl].
    - intros done k [] ma [] mb (rest & Hk) (Ba & Ga & Hga) Eb. assert (Hin : In k (c_cons c)) by (cbn [app] in Hk; rewrite Hk; apply in_or_app; right; now left).
      rewrite Forall_forall in Hc. destruct (t_cqm_constraint Hn k Ga (info_grow Hga I1) (Hc _ Hin) Eb) as (Bb & Gb & Hgb). exists Bb. split; [exact Gb|]. eapply grow_trans; eassumption. }
  destruct HI as (B3 & G4 & _). eauto.
Qed.
Lemma whole_bit q : whole 0 1 q -> bit q.
Proof. intros (z & -> & Hz). assert (z = 0 \/ z = 1)%Z as [->| ->] by lia; [now left|now right]. Qed.
Theorem cqm_run strict dbg c : c_binary c <> [] -> proper_cqm c ->
  exists m g obj, from_cqm c no_model = Ok (Some 0, m) /\ history (build m) = Ok g /\ p_obj m = Some obj /\ faithful strict dbg m g /\
    forall st, running strict dbg m g st -> exists xs, length xs = length (c_binary c) /\ Forall bit xs /\
      pin_of (nodes strict dbg m) g st 0 = Some (still xs) /\ pin_of (nodes strict dbg m) g st obj = Some (still [qm_value (c_obj c) xs]) /\
      exists sat, Forall2 (fun k b => pin_of (nodes strict dbg m) g st k = Some (still [b2q b])) (p_cons m) sat /\
        (Forall (fun b => b = true) sat <-> Forall (met xs) (c_cons c)).
Proof.
  intros Hne Hp. destruct (@cqm_model c Hne Hp) as (m & E & _ & (ps & ct & Ed) & H). destruct (@cqm_good strict dbg c _ m Hne Hp E) as (B & G). destruct (good_runs G) as (g & Eg & L & Fa).
  set (n := length (c_binary c)) in *.
  assert (Hobj : exists obj, p_obj m = Some obj). { destruct (H (fun _ => repeat 0%Qc n) (repeat 0%Qc n)) as [(x & Hx & _) _]; [apply repeat_length|apply Forall_forall; intros q Hq; apply repeat_spec in Hq; now left|reflexivity|]. eauto. }
  destruct Hobj as [obj Hb]. exists m, g, obj. split; [exact E|]. split; [exact Eg|]. split; [exact Hb|]. split; [exact Fa|]. intros st Hr. destruct Fa as (_ & Fa & _). destruct (Fa st Hr) as (dv & Hdom & Sh).
  destruct (Hdom _ _ Ed) as [Hal _]. cbn [s_cls s_shape allowed decided_cls] in Hal. specialize (Hal eq_refl). destruct Hal as [Hlen Hw].
  assert (Hl : length (dv 0) = n) by (cbn in Hlen; lia). assert (Hbits : Forall bit (dv 0)) by (eapply Forall_impl; [|exact Hw]; apply whole_bit).
  destruct (H dv (dv 0) Hl Hbits eq_refl) as [(x & Hx & Hy) (bs & Hbs & Hf)]. exists (dv 0). split; [exact Hl|]. split; [exact Hbits|].
  split; [apply (shown_value Sh); apply y_dec with (1 := Ed); reflexivity|]. split; [apply (shown_value Sh); congruence|].
  exists bs. split; [|exact Hf]. clear - Hbs Sh. induction Hbs; constructor; auto. now apply (shown_value Sh).
Qed.
