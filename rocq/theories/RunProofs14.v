(** Whole models: vehicle routing with time windows. *)
From Coq Require Import Relations Permutation.
From Verif Require Import Base Num SliceModel SliceSpec ShapeModel ShapeSpec StateDataModel NodeSpec NodeShape NodeLib BinaryModel BasicModel BasicSpec ViewModel ViewSpec ElemModel NaryModel NarySpec ReduceModel BoundsModel
  PermModel AdvModel AdvSpec AdvSpec2 GraphModel GraphSpec ProposeModel ProposeSpec PyModel PySpec GenModel GenSpec DisjointModel DisjointSpec GroupModel GroupSpec PyProofs PyRules PyValues GenProofs GenProofs2 GenProofs3 GenProofs4 GenProofs7 GenProofs11
  RunModel RunSpec RunSpec2 RunProofs RunProofs2 RunProofs3 RunProofs4 RunProofs6 RunProofs7 RunProofs8 RunProofs9 RunProofs10 RunProofs12 RunProofs13 FileProofs2 FileProofs3.
Set Implicit Arguments.

Ltac emitted G := lazymatch goal with E : emit ?c ?ps ?sh _ ?m = Ok (?x, ?m0) |- RunProofs7.made ?s ?d _ ?B ?t _ _ _ _ ?P => destruct (@good_emit s d m B t c ps sh P x m0 G) as (B0 & G0 & Hg0 & Hx0 & Hi0 & _); [| | | |exact E|exists B0; split; [exact G0|]; split; [exact Hg0|]; split; [exact Hx0|]; now apply Hi0] end.
Lemma info_weaken m B t x c sh (P Q : num -> Prop) : only P Q -> info m B t x c sh P -> info m B t x c sh Q.
Proof. intros H (A1 & A2 & A3 & A4). split; [exact A1|]. split; [exact A2|]. split; [exact A3|]. intros q Hq. auto. Qed.
Lemma index_more a b : (a <= b)%Z -> only (index_of a) (index_of b).
Proof. intros H q (i & Hi & ->). exists i. split; [lia|reflexivity]. Qed.

Section Rules.
Variables strict dbg : bool.
Notation Good := (Good strict dbg).
Notation made := (made strict dbg).

Lemma t_where m B t c y z cc Pc cy cz P x m' : Good m B t -> info m B t c cc [] Pc -> info m B t y cy [] P -> info m B t z cz [] P -> where_ c y z m = Ok (x, m') -> made m B t x m' KWhere [] P.
Proof.
  intros G Ic Iy Iz E. unfold where_ in E. destruct (info_look Ic) as [pc Lc]. destruct (info_look Iy) as [py Ly]. destruct (info_look Iz) as [pz Lz]. unfold bind in E. rewrite Lc in E. cbv beta iota in E. rewrite Ly in E. cbv beta iota in E. rewrite Lz in E. cbv beta iota in E.
  cbn [s_shape] in E. unfold lift in E. change (where_new [] [] []) with (Ok (@nil Z)) in E. cbn [rbind] in E. emitted G.
  - repeat constructor; eapply info_late; eauto.
  - discriminate.
  - split; [repeat constructor; eapply info_lt; eauto|]. split; [apply wf_shape0|]. cbn [s_cls s_pred s_shape]. now rewrite (info_shape Ic), (info_shape Iy), (info_shape Iz).
  - split; [repeat constructor; eapply info_array; eauto|]. cbn [s_cls s_pred]. rewrite upd_same, !upd_other by (eapply info_lt; eauto). split; eapply info_only_at; eauto.
Qed.
Lemma t_size m B t y cy Py z m' : Good m B t -> info m B t y cy [-1]%Z Py -> size y m = Ok (z, m') -> exists x, z = inr x /\ made m B t x m' KSize [] any.
Proof.
  intros G Iy E. unfold size in E. destruct (info_look Iy) as [py Ly]. unfold bind in E at 1. rewrite Ly in E. cbv beta iota in E. cbn [s_shape dynamic] in E. change (-1 <? 0)%Z with true in E. cbv iota in E. take E. injection E as <- <-. exists x. split; [reflexivity|]. emitted G.
  - repeat constructor; eapply info_late; eauto.
  - discriminate.
  - split; [repeat constructor; eapply info_lt; eauto|]. split; [apply wf_shape0|]. reflexivity.
  - split; [repeat constructor; eapply info_array; eauto|]. cbn [s_cls s_pred]. rewrite upd_same. intros q. exact I.
Qed.
(** [x[i]], also from the end *)
Lemma t_item_any m B t y cy n Py i x m' : Good m B t -> info m B t y cy [n] Py -> getitem y [PInt i] m = Ok (x, m') -> not_adv cy -> (0 <= n < 2147483648)%Z -> (- n <= i < n)%Z -> made m B t x m' (KBasic [IInt i]) [] Py.
Proof.
  intros G Iy E Ha Hn Hi. destruct (@basic_int n i) as (p & Hb & Hsh); try lia.
  pose proof Iy as ((ps & Ey) & _). rewrite (@not_adv_getitem _ _ _ _ _ _ _ Ey Ha) in E. unfold array_getitem in E. unfold bind in E at 1. unfold look in E at 1. rewrite Ey in E. cbv beta iota in E. cbn [s_shape length Nat.sub repeat app forallb is_sym negb andb] in E.
  rewrite <- Hsh. refine (@t_basic strict dbg m B t y _ cy [n] Py _ p x m' G Iy E _ _ _ Hb _ _).
  - cbn. lia.
  - constructor; [unfold SMAX; lia|constructor].
  - reflexivity.
  - rewrite Hsh. apply wf_shape0.
  - rewrite Hsh. cbn. lia.
Qed.
(** [x[a, b]] with scalar index arrays *)
Lemma t_scalar2 m B t y cy r k Py z cz z' cz' x m' : Good m B t -> info m B t y cy [r; k] Py -> info m B t z cz [] (index_of r) -> info m B t z' cz' [] (index_of k) -> getitem y [PArr z; PArr z'] m = Ok (x, m') -> not_adv cy ->
  (0 <= r)%Z -> (0 <= k)%Z -> made m B t x m' (KAdv [true; true]) [] Py.
Proof.
  intros G Iy Iz Iz' E Ha Hr Hk. pose proof Iy as ((ps & Ey) & _). rewrite (@not_adv_getitem _ _ _ _ _ _ _ Ey Ha) in E. unfold array_getitem in E. unfold bind in E at 1. unfold look in E at 1. rewrite Ey in E. cbv beta iota in E.
  cbn [s_shape length Nat.sub repeat app forallb is_sym is_full full negb andb orb] in E.
  refine (@t_adv strict dbg m B t y [PArr z; PArr z'] cy [r; k] Py [] [] x m' G Iy E _ _ _ _ _ _ _).
  - cbn. lia.
  - reflexivity.
  - constructor; [eauto|constructor; [eauto|constructor]].
  - constructor; [now left|constructor; [now left|constructor]].
  - intros d'. destruct (@adv_new2_any d' r k []) as (A' & X1 & X2 & X3 & X4); [lia|lia|cbn; lia|]. exists A'. auto.
  - apply wf_shape0.
  - now left.
Qed.
End Rules.

(** Ranges of at most one element. *)
Lemma range_new a b : exists p, basic_new (-1) [-1]%Z [8]%Z true [ISlice (Slice a b 1)] = Ok (p, true) /\ p_shape p = [-1]%Z.
Proof. eexists. split; reflexivity. Qed.
Lemma cut_range a b s : s = Slice (value_or a 0%Z) (value_or b SMAX) 1 -> (sstart s <= SMAX)%Z -> cut_of (PSlice a b None) s.
Proof. intros -> H. split; [destruct a, b; reflexivity|]. split; [reflexivity|]. split; [exact H|]. apply range_new. Qed.
Definition at_most_one (s : slice) : Prop := forall l : list num, (Z.of_nat (length l) < 2147483648)%Z -> length (cut (sstart s) (sstop s) l) <= 1.
Lemma one_slot i : (0 <= i)%Z -> at_most_one (Slice i (i + 1) 1).
Proof. intros Hi l Hl. cbn [sstart sstop]. unfold cut. rewrite firstn_length. unfold lo, hi, py_norm. destruct (Z.ltb_spec i 0); [lia|]. destruct (Z.ltb_spec (i + 1) 0); lia. Qed.
Lemma one_last : at_most_one (Slice (-1) SMAX 1).
Proof. intros l Hl. cbn [sstart sstop]. unfold cut. rewrite firstn_length, skipn_length. unfold lo, hi, py_norm. cbn [Z.ltb Z.compare]. lia. Qed.
Lemma brief_cut m x y s ct c ps ct' : nth_error (p_syms m) x = Some (Sym (KBasic [ISlice s]) [y] [-1]%Z ct) -> nth_error (p_syms m) y = Some (Sym c ps [-1]%Z ct') -> sstep s = 1%Z -> at_most_one s -> brief m x.
Proof.
  intros Hx Hy Hs H1. exists y, [ISlice s], [-1]%Z, ct. split; [exact Hx|]. split; [eapply nth_lt; eauto|]. intros a v Hv. unfold shape_at in Hv. rewrite Hy in Hv. cbn [s_shape meaning] in Hv.
  assert (Hl : (Z.of_nat (length a) < 2147483648)%Z) by (unfold view_fun in Hv; destruct (Z.ltb_spec (Z.of_nat (length a)) 2147483648); [assumption|discriminate]).
  destruct s as [a0 b0 c0]. cbn in Hs. subst c0. rewrite view_slice in Hv by (auto; now right). injection Hv as <-. now apply H1.
Qed.

Section Windows.
Variable dbg : bool.
Variables n k main : nat.
Hypothesis Hn : 1 <= n.
Hypothesis Hs : (Z.of_nat (S n * S n) < 2147483648)%Z.
Let N := Z.of_nat n.
Let N1 := Z.of_nat (S n).
Notation Good := (Good false dbg).
Variables t_from t_to t_cust t_open t_close t_service one helper : nat.

Definition scal (m : pym) B (x : nat) : Prop := exists c P, info m B [] x c [] P.
Definition vec (m : pym) B (x : nat) : Prop := exists v, info m B [] x (KConst v) [N1] any.
Definition stops (m : pym) B (r : nat) : Prop := exists i, info m B [] r (KListOf main N k i) [-1]%Z (index_of N).
(** What the loops are given. *)
Definition env (m : pym) B : Prop := Good m B [] /\ (vec m B t_from /\ vec m B t_to /\ vec m B t_open /\ vec m B t_close /\ vec m B t_service) /\
  (exists v, info m B [] t_cust (KConst v) [N1; N1] any) /\ scal m B one /\ exists v, info m B [] helper (KConst v) [N1] (index_of N1).
Lemma scal_grow m B m' B' x : grow m B m' B' -> scal m B x -> scal m' B' x.
Proof. intros H (c & P & Ix). exists c, P. eapply info_grow; eauto. Qed.
Lemma vec_grow m B m' B' x : grow m B m' B' -> vec m B x -> vec m' B' x.
Proof. intros H (v & Ix). exists v. eapply info_grow; eauto. Qed.
Lemma stops_grow m B m' B' x : grow m B m' B' -> stops m B x -> stops m' B' x.
Proof. intros H (v & Ix). exists v. eapply info_grow; eauto. Qed.
Lemma env_grow m B m' B' : env m B -> grow m B m' B' -> Good m' B' [] -> env m' B'.
Proof.
  intros (_ & (A1 & A2 & A3 & A4 & A5) & (v & A6) & A7 & (w & A8)) H G. split; [exact G|]. split; [repeat split; eapply vec_grow; eauto|]. split; [exists v; eapply info_grow; eauto|]. split; [eapply scal_grow; eauto|exists w; eapply info_grow; eauto].
Qed.
Lemma env_from m B : env m B -> vec m B t_from. Proof. intros H. apply H. Qed.
Lemma env_to m B : env m B -> vec m B t_to. Proof. intros H. apply H. Qed.
Lemma env_open m B : env m B -> vec m B t_open. Proof. intros H. apply H. Qed.
Lemma env_close m B : env m B -> vec m B t_close. Proof. intros H. apply H. Qed.
Lemma env_service m B : env m B -> vec m B t_service. Proof. intros H. apply H. Qed.
Lemma env_one m B : env m B -> scal m B one. Proof. intros H. apply H. Qed.
Lemma range_n : (0 <= N1 < 2147483648)%Z.
Proof. unfold N1. nia. Qed.

(** What a step leaves. *)
Definition stepped (m : pym) B (m' : pym) (Q : (nat -> num -> Prop) -> Prop) : Prop := exists B', env m' B' /\ grow m B m' B' /\ Q B'.
Lemma to_env m B x m' c sh P : env m B -> made false dbg m B [] x m' c sh P -> stepped m B m' (fun B' => info m' B' [] x c sh P).
Proof. intros He (B' & G & H & _ & Ix). exists B'. split; [eapply env_grow; eauto|]. auto. Qed.

(** The customer at a stop, or the entry after the last. *)
Lemma w_stop m B r i s cond m1 m2 m3 m4 a b l idx : env m B -> stops m B r -> scal m B cond -> cut_of i s -> sstep s = 1%Z -> at_most_one s ->
  getitem r [i] m = Ok (a, m1) -> red RAdd a m1 = Ok (b, m2) -> getitem helper [PInt (-1)] m2 = Ok (l, m3) -> where_ cond b l m3 = Ok (idx, m4) ->
  stepped m B m4 (fun B' => info m4 B' [] idx KWhere [] (index_of N1)).
Proof.
  intros He (j & Ir) (cc & Pc & Ic) Hc H1 Ho E1 E2 E3 E4. pose proof range_n as Hr. assert (Hn1 : (N < 2147483648)%Z) by (unfold N, N1 in *; lia).
  destruct (t_cut (proj1 He) Ir Hn1 Hc E1) as [Ma [ca Ea]]. destruct (to_env He Ma) as (Ba & Ha & Ta & Ia). apply (info_grow Ta) in Ir, Ic.
  assert (Hb : brief m1 a) by (destruct Ir as ((ps & Ej) & _); eapply brief_cut; eauto).
  assert (H0 : index_of N 0%Qc) by (exists 0; split; [unfold N; lia|reflexivity]).
  destruct (to_env Ha (t_brief (proj1 Ha) Ia Hb H0 E2)) as (Bb & Hb' & Tb & Ib). apply (info_grow Tb) in Ic.
  pose proof Hb' as (_ & _ & _ & _ & v & Ih). assert (Hm1 : (- N1 <= -1 < N1)%Z) by (unfold N1; lia).
  destruct (to_env Hb' (t_item_any (proj1 Hb') Ih E3 I Hr Hm1)) as (Bc & Hc' & Tc & Il). apply (info_grow Tc) in Ic, Ib.
  apply (@info_weaken _ _ _ _ _ _ (index_of N) (index_of N1)) in Ib; [|apply index_more; unfold N, N1; lia].
  destruct (to_env Hc' (t_where (proj1 Hc') Ic Ib Il E4)) as (Bd & Hd & Td & Id). exists Bd. split; [exact Hd|]. split; [|exact Id]. eapply grow_trans; [exact Ta|]. eapply grow_trans; [exact Tb|]. eapply grow_trans; eauto.
Qed.
Lemma w_bin m B o y z x m' : env m B -> scal m B y -> scal m B z -> binop o y z m = Ok (x, m') -> o <> BDiv -> o <> BMod -> stepped m B m' (fun B' => scal m' B' x).
Proof.
  intros He (cy & Py & Iy) (cz & Pz & Iz) E H1 H2. destruct (to_env He (t_bin (sh := []) (proj1 He) Iy Iz E H1 H2 eq_refl wf_shape0 (or_introl eq_refl))) as (B' & He' & H & Ix). exists B'. split; [exact He'|]. split; [exact H|]. eexists. eauto.
Qed.
Lemma w_pick m B y z cz x m' : env m B -> vec m B y -> info m B [] z cz [] (index_of N1) -> getitem y [PArr z] m = Ok (x, m') -> stepped m B m' (fun B' => scal m' B' x).
Proof.
  intros He (v & Iy) Iz E. destruct (to_env He (t_scalar (proj1 He) Iy Iz E I range_n)) as (B' & He' & H & Ix). exists B'. split; [exact He'|]. split; [exact H|]. eexists. eauto.
Qed.
Lemma w_max m B y z x m' : env m B -> scal m B y -> scal m B z -> several BMax NMax [y; z] m = Ok (x, m') -> stepped m B m' (fun B' => scal m' B' x).
Proof. intros He Hy Hz E. eapply w_bin; [exact He|exact Hy|exact Hz|exact E|discriminate|discriminate]. Qed.
Lemma w_pick2 m B z cz z' cz' x m' : env m B -> info m B [] z cz [] (index_of N1) -> info m B [] z' cz' [] (index_of N1) -> getitem t_cust [PArr z; PArr z'] m = Ok (x, m') -> stepped m B m' (fun B' => scal m' B' x).
Proof.
  intros He Iz Iz' E. pose proof He as (_ & _ & (v & Iy) & _). pose proof range_n as Hr. destruct (to_env He (t_scalar2 (proj1 He) Iy Iz Iz' E I (proj1 Hr) (proj1 Hr))) as (B' & He' & H & Ix). exists B'. split; [exact He'|]. split; [exact H|]. eexists. eauto.
Qed.
Lemma w_helper m B i x m' : env m B -> i < S n -> getitem helper [PInt (Z.of_nat i)] m = Ok (x, m') -> stepped m B m' (fun B' => scal m' B' x).
Proof.
  intros He Hi E. pose proof He as (_ & _ & _ & _ & (v & Iy)). destruct (to_env He (t_item_any (proj1 He) Iy E I range_n ltac:(unfold N1; lia))) as (B' & He' & H & Ix). exists B'. split; [exact He'|]. split; [exact H|]. eexists. eauto.
Qed.

Notation tw_slot := (tw_slot t_from t_cust t_open t_close t_service one helper).
Ltac tr := repeat (eapply grow_trans; [eassumption|]); apply grow_refl.
Lemma w_slot m B r z leaving windows i leaving' windows' m' : env m B -> stops m B r -> scal m B z -> Forall (scal m B) leaving -> i < S n ->
  tw_slot r z (leaving, windows) i m = Ok ((leaving', windows'), m') -> stepped m B m' (fun B' => Forall (scal m' B') leaving').
Proof.
  intros He Hr Hz Hl Hi E. unfold GenModel.tw_slot in E. take E. destruct (w_helper He Hi E0) as (B1 & H1 & T1 & S1). clear E0. apply (stops_grow T1) in Hr. apply (scal_grow T1) in Hz.
  take E. destruct (w_bin H1 S1 (env_one H1) E0) as (B2 & H2 & T2 & S2); [discriminate|discriminate|]. clear E0. apply (stops_grow T2) in Hr. apply (scal_grow T2) in Hz.
  take E. destruct (w_bin H2 S2 Hz E0) as (B3 & H3 & T3 & S3); [discriminate|discriminate|]. clear E0. apply (stops_grow T3) in Hr.
  take E. destruct x2 as [idx serving]. assert (HH : stepped m2 B3 m3 (fun B' => scal m3 B' serving /\ exists c, info m3 B' [] idx c [] (index_of N1))).
  { destruct (i =? 0) eqn:Ei.
    - take E0. take E0. take E0. take E0. destruct (w_stop H3 Hr S3 cut_first eq_refl (@one_slot 0 ltac:(lia)) E1 E2 E3 E4) as (B4 & H4 & T4 & I4). clear E1 E2 E3 E4.
      take E0. destruct (w_pick H4 (env_from H4) I4 E1) as (B5 & H5 & T5 & S5). clear E1. apply (info_grow T5) in I4. 
      take E0. destruct (w_pick H5 (env_open H5) I4 E1) as (B6 & H6 & T6 & S6). clear E1. apply (info_grow T6) in I4. apply (scal_grow T6) in S5.
      take E0. injection E0 as <- <- <-. destruct (w_max H6 S5 S6 E1) as (B7 & H7 & T7 & S7). apply (info_grow T7) in I4. exists B7. split; [exact H7|]. split; [tr|]. eauto.
    - apply Nat.eqb_neq in Ei. assert (C1 : cut_of (PSlice (Some (Z.of_nat i - 1)%Z) (Some (Z.of_nat i)) None) (Slice (Z.of_nat i - 1) (Z.of_nat i - 1 + 1) 1)).
      { replace (Z.of_nat i - 1 + 1)%Z with (Z.of_nat i) by lia. apply cut_range; [reflexivity|]. pose proof range_n. unfold N1 in *. cbn [sstart]. unfold SMAX. lia. }
      assert (C2 : cut_of (PSlice (Some (Z.of_nat i)) (Some (Z.of_nat i + 1)%Z) None) (Slice (Z.of_nat i) (Z.of_nat i + 1) 1)).
      { apply cut_range; [reflexivity|]. pose proof range_n. unfold N1 in *. cbn [sstart]. unfold SMAX. lia. }
      take E0. take E0. take E0. take E0. destruct (w_stop H3 Hr S3 C1 eq_refl (@one_slot (Z.of_nat i - 1) ltac:(lia)) E1 E2 E3 E4) as (B4 & H4 & T4 & I4). clear E1 E2 E3 E4. apply (stops_grow T4) in Hr. apply (scal_grow T4) in S3.
      take E0. take E0. take E0. take E0. destruct (w_stop H4 Hr S3 C2 eq_refl (@one_slot (Z.of_nat i) ltac:(lia)) E1 E2 E3 E4) as (B5 & H5 & T5 & I5). clear E1 E2 E3 E4. apply (info_grow T5) in I4.
      take E0. destruct (w_pick2 H5 I4 I5 E1) as (B6 & H6 & T6 & S6). clear E1. apply (info_grow T6) in I5.
      take E0. destruct leaving as [|last leaving]; [discriminate|]. cbn [hd_error the] in E1. injection E1 as <- <-. inversion Hl as [|? ? Hlast _]; subst.
      pose proof (scal_grow T6 (scal_grow T5 (scal_grow T4 (scal_grow T3 (scal_grow T2 (scal_grow T1 Hlast)))))) as S0.
      take E0. destruct (w_bin H6 S0 S6 E1) as (B7 & H7 & T7 & S7); [discriminate|discriminate|]. clear E1. apply (info_grow T7) in I5.
      take E0. destruct (w_pick H7 (env_open H7) I5 E1) as (B8 & H8 & T8 & S8). clear E1. apply (info_grow T8) in I5. apply (scal_grow T8) in S7.
      take E0. injection E0 as <- <- <-. destruct (w_max H8 S7 S8 E1) as (B9 & H9 & T9 & S9). apply (info_grow T9) in I5. exists B9. split; [exact H9|]. split; [tr|]. eauto. }
  destruct HH as (B4 & H4 & T4 & S4 & c & I4). clear E0.
  take E. destruct (w_pick H4 (env_service H4) I4 E0) as (B5 & H5 & T5 & S5). clear E0. apply (info_grow T5) in I4. apply (scal_grow T5) in S4.
  take E. destruct (w_bin H5 S4 S5 E0) as (B6 & H6 & T6 & S6); [discriminate|discriminate|]. clear E0. apply (info_grow T6) in I4.
  take E. destruct (w_pick H6 (env_close H6) I4 E0) as (B7 & H7 & T7 & S7). clear E0. apply (scal_grow T7) in S6.
  take E. injection E as <- <- <-. destruct (w_bin H7 S6 S7 E0) as (B8 & H8 & T8 & S8); [discriminate|discriminate|]. exists B8. split; [exact H8|]. assert (T : grow m B m7 B8) by tr. split; [exact T|].
  constructor; [exact (scal_grow T8 S6)|]. eapply Forall_impl; [|exact Hl]. intros y Hy. exact (scal_grow T Hy).
Qed.
Lemma w_constrain m B (cs : list nat) u m' : env m B -> pfor cs (fun _ c => add_constraint c) tt m = Ok (u, m') -> env m' B /\ grow m B m' B.
Proof.
  intros He E. pose (Inv := fun (_ : list nat) (_ : unit) m1 => env m1 B /\ grow m B m1 B). refine (@pfor_inv _ _ Inv _ [] cs tt m u m' _ _ E).
  - split; [exact He|apply grow_refl].
  - intros done c s ma s' mb _ (Ha & Ta) Eb. destruct (t_constrain _ (proj1 Ha) Eb) as [Gb Tb]. split; [eapply env_grow; eauto|]. eapply grow_trans; eauto.
Qed.
Notation tw_vehicle := (tw_vehicle t_from t_to t_cust t_open t_close t_service one helper).
Lemma w_vehicle q m B back r z back' m' : env m B -> stops m B r -> scal m B z -> Forall (scal m B) back -> (Z.to_nat q <= S n) ->
  tw_vehicle q back (r, z) m = Ok (back', m') -> stepped m B m' (fun B' => Forall (scal m' B') back').
Proof.
  intros He Hr Hz Hb Hq E. unfold GenModel.tw_vehicle in E. take E. destruct x as [leaving windows].
  pose (Inv := fun (_ : list nat) (lw : list nat * list nat) m1 => stepped m B m1 (fun B' => Forall (scal m1 B') (fst lw))).
  assert (HI : Inv ([] ++ seq 0 (Z.to_nat q)) (leaving, windows) m0).
  { refine (@pfor_inv _ _ Inv _ [] (seq 0 (Z.to_nat q)) ([], []) m (leaving, windows) m0 _ _ E0).
    - exists B. split; [exact He|]. split; [apply grow_refl|constructor].
    - intros done i [l w] ma [l' w'] mb (rest & Hi) (Ba & Ha & Ta & Sa) Eb. assert (Hin : In i (seq 0 (Z.to_nat q))) by (cbn [app] in Hi; rewrite Hi; apply in_or_app; right; now left). apply in_seq in Hin.
      assert (Hi1 : i < S n) by lia. destruct (@w_slot _ _ _ _ _ _ _ _ _ _ Ha (stops_grow Ta Hr) (scal_grow Ta Hz) Sa Hi1 Eb) as (Bb & Hb' & Tb & Sb). exists Bb. split; [exact Hb'|]. split; [eapply grow_trans; eauto|exact Sb]. }
  clear E0. destruct HI as (B0 & H0 & T0 & S0). cbn [fst] in S0. apply (stops_grow T0) in Hr. apply (scal_grow T0) in Hz.
  take E. destruct (w_bin H0 (env_one H0) Hz E0) as (B1 & H1 & T1 & S1); [discriminate|discriminate|]. clear E0. apply (stops_grow T1) in Hr.
  take E. take E. take E. take E. destruct (w_stop H1 Hr S1 cut_last eq_refl one_last E0 E1 E2 E3) as (B2 & H2 & T2 & I2). clear E0 E1 E2 E3.
  take E. destruct leaving as [|last leaving]; [discriminate|]. cbn [hd_error the] in E0. injection E0 as <- <-. inversion S0 as [|? ? Slast _]; subst.
  take E. destruct (w_pick H2 (env_to H2) I2 E0) as (B3 & H3 & T3 & S3). clear E0.
  take E. destruct (w_bin H3 (scal_grow T3 (scal_grow T2 (scal_grow T1 Slast))) S3 E0) as (B4 & H4 & T4 & S4); [discriminate|discriminate|]. clear E0.
  take E. injection E as <- <-. match type of E0 with pfor _ _ _ _ = Ok (_, ?mm) => destruct (w_constrain _ H4 E0) as [H5 T5]; exists B4; split; [exact H5|]; assert (T : grow m B mm B4) by tr; split; [exact T|] end.
  apply Forall_app. split; [eapply Forall_impl; [|exact Hb]; intros y Hy; exact (scal_grow T Hy)|]. constructor; [exact (scal_grow T5 S4)|constructor].
Qed.
Notation tw_cost := (tw_cost t_from t_to t_cust).
Lemma w_gather m B y z cz x m' : env m B -> vec m B y -> info m B [] z cz [-1]%Z (index_of N) -> indices m z -> getitem y [PArr z] m = Ok (x, m') -> stepped m B m' (fun B' => info m' B' [] x (KAdv [true]) [-1]%Z any).
Proof.
  intros He (v & Iy) Iz Hz E. apply (@info_weaken _ _ _ _ _ _ (index_of N) (index_of N1)) in Iz; [|apply index_more; unfold N, N1; lia]. apply (to_env He). eapply t_gather; eauto; [exact (proj1 He)|exact I|exact range_n].
Qed.
Lemma w_sum m B y cy x m' : env m B -> info m B [] y cy [-1]%Z any -> red RAdd y m = Ok (x, m') -> stepped m B m' (fun B' => scal m' B' x).
Proof. intros He Iy E. destruct (to_env He (t_red _ (proj1 He) Iy E)) as (B' & H & T & Ix). exists B'. split; [exact H|]. split; [exact T|]. eexists. eauto. Qed.
Lemma w_cut m B r i s x m' : env m B -> stops m B r -> cut_of i s -> getitem r [i] m = Ok (x, m') -> stepped m B m' (fun B' => info m' B' [] x (KBasic [ISlice s]) [-1]%Z (index_of N) /\ indices m' x /\ exists ct, nth_error (p_syms m') x = Some (Sym (KBasic [ISlice s]) [r] [-1]%Z ct)).
Proof.
  intros He (j & Ir) Hc E. assert (Hn1 : (N < 2147483648)%Z) by (pose proof range_n; unfold N, N1 in *; lia). destruct (t_cut (proj1 He) Ir Hn1 Hc E) as [Ma [ca Ea]]. destruct (to_env He Ma) as (B' & H & T & Ix). exists B'. split; [exact H|]. split; [exact T|]. split; [exact Ix|]. split; [|eauto].
  apply (info_grow T) in Ir. destruct Ir as ((ps & Er) & _). eapply indices_cut; eauto.
Qed.
Lemma w_cost m B costs r costs' m' : env m B -> stops m B r -> Forall (scal m B) costs -> tw_cost costs r m = Ok (costs', m') -> length costs' = 3 + length costs /\ stepped m B m' (fun B' => Forall (scal m' B') costs').
Proof.
  intros He Hr Hc E. unfold GenModel.tw_cost in E. take E. destruct (w_cut He Hr cut_first E0) as (B1 & H1 & T1 & I1 & Z1 & _). clear E0. apply (stops_grow T1) in Hr.
  take E. destruct (w_gather H1 (env_from H1) I1 Z1 E0) as (B2 & H2 & T2 & I2). clear E0. apply (stops_grow T2) in Hr.
  take E. destruct (w_sum H2 I2 E0) as (B3 & H3 & T3 & S3). clear E0. apply (stops_grow T3) in Hr.
  take E. destruct (w_cut H3 Hr cut_last E0) as (B4 & H4 & T4 & I4 & Z4 & _). clear E0. apply (stops_grow T4) in Hr. apply (scal_grow T4) in S3.
  take E. destruct (w_gather H4 (env_to H4) I4 Z4 E0) as (B5 & H5 & T5 & I5). clear E0. apply (stops_grow T5) in Hr. apply (scal_grow T5) in S3.
  take E. destruct (w_sum H5 I5 E0) as (B6 & H6 & T6 & S6). clear E0. apply (stops_grow T6) in Hr. apply (scal_grow T6) in S3.
  take E. destruct (w_cut H6 Hr cut_but_first E0) as (B7 & H7 & T7 & I7 & Z7 & c7 & E7). clear E0. apply (stops_grow T7) in Hr. apply (scal_grow T7) in S3, S6.
  take E. destruct (w_cut H7 Hr cut_but_last E0) as (B8 & H8 & T8 & I8 & Z8 & c8 & E8). clear E0. apply (stops_grow T8) in Hr. apply (scal_grow T8) in S3, S6. apply (@view_stays _ _ _ _ _ _ _ _ _ T8) in E7. apply (info_grow T8) in I7. pose proof (indices_ext (proj1 T8) Z7) as Z7'.
  take E. assert (Hsz : same_size m7 x5 x6) by (destruct Hr as (j & (ps & Er) & _); destruct (@same_cuts _ _ _ _ _ _ _ _ _ _ _ _ E8 E7 Er) as (w & ix & sh & ct & ix' & sh' & ct' & Q1 & Q2 & Q3 & Q4); exists w, ix', sh', ct', ix, sh, ct; repeat (split; [assumption|]); intros a v v' V1 V2; symmetry; eapply Q4; eauto).
  pose proof H8 as (_ & _ & (v & Iy) & _). pose proof range_n as Hrn. assert (W : forall z c, info m7 B8 [] z c [-1]%Z (index_of N) -> info m7 B8 [] z c [-1]%Z (index_of N1)) by (intros z c; apply info_weaken, index_more; unfold N, N1; lia).
  destruct (to_env H8 (t_gather2 eq_refl (proj1 H8) Iy (W _ _ I7) (W _ _ I8) Z7' Z8 Hsz E0 I (proj1 Hrn) (proj1 Hrn))) as (B9 & H9 & T9 & I9). clear E0. apply (scal_grow T9) in S3, S6.
  take E. injection E as <- <-. destruct (w_sum H9 I9 E0) as (B10 & H10 & T10 & S10). apply (scal_grow T10) in S3, S6. split; [rewrite app_length; cbn; lia|]. exists B10. split; [exact H10|]. assert (T : grow m B m9 B10) by tr. split; [exact T|].
  apply Forall_app. split; [eapply Forall_impl; [|exact Hc]; intros y Hy; exact (scal_grow T Hy)|]. repeat constructor; assumption.
Qed.
Lemma w_compare m B c (zs : list nat) cs m' : env m B -> scal m B c -> Forall (scal m B) zs -> pfor zs (fun cs z => do a <- binop BLe z c ; ret (cs ++ [a])) [] m = Ok (cs, m') -> stepped m B m' (fun _ => True).
Proof.
  intros He Hc Hz E. pose (Inv := fun (_ : list nat) (_ : list nat) m1 => stepped m B m1 (fun _ => True)). refine (@pfor_inv _ _ Inv _ [] zs [] m cs m' _ _ E).
  - exists B. split; [exact He|]. split; [apply grow_refl|exact I].
  - intros done z s ma s' mb (rest & Hi) (Ba & Ha & Ta & _) Eb. assert (Hin : scal m B z) by (rewrite Forall_forall in Hz; apply Hz; cbn [app] in Hi; rewrite Hi; apply in_or_app; right; now left).
    take Eb. injection Eb as <- <-. destruct (w_bin Ha (scal_grow Ta Hin) (scal_grow Ta Hc) E0) as (Bb & Hb & Tb & _); [discriminate|discriminate|]. exists Bb. split; [exact Hb|]. split; [eapply grow_trans; eauto|exact I].
Qed.
Lemma in_combine_both {X Y} (l : list X) (l' : list Y) a b : In (a, b) (combine l l') -> In a l /\ In b l'.
Proof. intros H. split; [eapply in_combine_l; eauto|eapply in_combine_r; eauto]. Qed.
Lemma w_rest q m B depo_close routes nclients r m' : env m B -> scal m B depo_close -> Forall (stops m B) routes -> Forall (scal m B) nclients -> 1 <= length routes -> Z.to_nat q <= S n ->
  tw_rest t_from t_to t_cust t_open t_close t_service one helper q depo_close main routes nclients m = Ok (r, m') -> exists B t, Good m' B t.
Proof.
  intros He Hd Hr Hc Hlen Hq E. unfold tw_rest in E. take E.
  pose (Inv := fun (_ : list (nat * nat)) (back : list nat) m1 => stepped m B m1 (fun B' => Forall (scal m1 B') back)).
  assert (HI : Inv ([] ++ combine routes nclients) x m0).
  { refine (@pfor_inv _ _ Inv _ [] (combine routes nclients) [] m x m0 _ _ E0).
    - exists B. split; [exact He|]. split; [apply grow_refl|constructor].
    - intros done [rr zz] back ma back' mb (rest & Hi) (Ba & Ha & Ta & Sa) Eb. assert (Hin : In (rr, zz) (combine routes nclients)) by (cbn [app] in Hi; rewrite Hi; apply in_or_app; right; now left). apply in_combine_both in Hin. rewrite Forall_forall in Hr, Hc.
      destruct (@w_vehicle q ma Ba back rr zz back' mb Ha (stops_grow Ta (Hr _ (proj1 Hin))) (scal_grow Ta (Hc _ (proj2 Hin))) Sa Hq Eb) as (Bb & Hb & Tb & Sb). exists Bb. split; [exact Hb|]. split; [eapply grow_trans; eauto|exact Sb]. }
  clear E0. destruct HI as (B1 & H1 & T1 & S1).
  take E. destruct (w_compare H1 (scal_grow T1 Hd) S1 E0) as (B2 & H2 & T2 & _). clear E0. take E. destruct (w_constrain _ H2 E0) as [H3 T3]. clear E0.
  assert (Hr3 : Forall (stops m2 B2) routes) by (eapply Forall_impl; [|exact Hr]; intros y Hy; exact (stops_grow T3 (stops_grow T2 (stops_grow T1 Hy)))).
  take E. pose (Inv2 := fun (done : list nat) (costs : list nat) m3 => length costs = 3 * length done /\ stepped m2 B2 m3 (fun B' => Forall (scal m3 B') costs)).
  assert (HI : Inv2 ([] ++ routes) x2 m3).
  { refine (@pfor_inv _ _ Inv2 _ [] routes [] m2 x2 m3 _ _ E0).
    - split; [reflexivity|]. exists B2. split; [exact H3|]. split; [apply grow_refl|constructor].
    - intros done rr costs ma costs' mb (rest & Hi) (Hl & Ba & Ha & Ta & Sa) Eb. assert (Hin : In rr routes) by (cbn [app] in Hi; rewrite Hi; apply in_or_app; right; now left). rewrite Forall_forall in Hr3.
      destruct (w_cost Ha (stops_grow Ta (Hr3 _ Hin)) Sa Eb) as [Hl' (Bb & Hb & Tb & Sb)]. split; [rewrite app_length; cbn [length]; lia|]. exists Bb. split; [exact Hb|]. split; [eapply grow_trans; eauto|exact Sb]. }
  clear E0. destruct HI as (L4 & B4 & H4 & T4 & F4). cbn [app] in L4. take E.
  assert (Hne : several BPlus NAdd x2 m3 = nary NAdd x2 m3) by (destruct x2 as [|? [|? [|? ?]]]; cbn [length] in L4; try lia; reflexivity). rewrite Hne in E0.
  destruct (t_nary (sh := []) NAdd (proj1 H4) E0 F4) as (B8 & G8 & _); [|apply wf_shape0|].
  - destruct x2 as [|a l]; [cbn in L4; lia|]. clear. cbn [map]. unfold nary_new. induction l; [reflexivity|exact IHl].
  - take E. injection E as _ <-. destruct (t_minimize _ G8 E1) as (G9 & _). eauto.
Qed.
End Windows.

Lemma good_constrain strict dbg m B (cs : list nat) u m' : RunProofs7.Good strict dbg m B [] -> pfor cs (fun _ c => add_constraint c) tt m = Ok (u, m') -> RunProofs7.Good strict dbg m' B [] /\ grow m B m' B.
Proof.
  intros He E. pose (Inv := fun (_ : list nat) (_ : unit) m1 => RunProofs7.Good strict dbg m1 B [] /\ grow m B m1 B). refine (@pfor_inv _ _ Inv _ [] cs tt m u m' _ _ E).
  - split; [exact He|apply grow_refl].
  - intros done c s ma s' mb _ (Ha & Ta) Eb. destruct (t_constrain _ Ha Eb) as [Gb Tb]. split; [exact Gb|]. eapply grow_trans; eauto.
Qed.
Section Whole.
Variable dbg : bool.
Variables (n k : nat) (demand : list num) (capacity : num) (T : list (list num)) (open close service : list num).
Hypothesis HP : tw_proper n k demand capacity T open close service.
Hypothesis Hs : (Z.of_nat (S n * S n) < 2147483648)%Z.
Hypothesis Hq : 1 <= 3 * (n / k) <= n + 1.
Notation Good := (Good false dbg).

Lemma tw_good r m : cvrp_time_windows (0%Qc :: demand) k capacity T open close service no_model = Ok (r, m) -> exists B t, Good m B t.
Proof.
  destruct HP as (Hn & _ & Hk & HT & HT0 & Lo & Lc & Ls & Po & Pc & Ps & Ld & _). intros E. unfold cvrp_time_windows in E.
  take E. apply unless_inv in E0. destruct E0 as [-> _]. take E. apply unless_inv in E0. destruct E0 as [-> _]. take E. apply require_vector_inv in E0. subst m0. take E. apply unless_inv in E0. destruct E0 as [-> _].
  take E. assert (m0 = no_model /\ x3 = Z.of_nat (S n)) as [-> ->] by (assert (Hn1 : 1 <= S n) by lia; unfold require_square, bind in E0; rewrite (require_matrix_ok _ Hn1 HT HT0) in E0; rewrite Z.eqb_refl in E0; injection E0 as <- <-; auto). clear E0.
  take E. apply require_vector_inv in E0. subst m0. take E. apply require_vector_inv in E0. subst m0. take E. apply require_vector_inv in E0. subst m0.
  do 4 (take E; apply unless_inv in E0; destruct E0 as [-> _]). cbn [tl] in E. cbv zeta in E. unfold zlen in E. rewrite Ld in E.
  assert (R1 : (0 <= Z.of_nat (S n) < 2147483648)%Z) by nia. assert (R0 : (0 <= Z.of_nat n < 2147483648)%Z) by lia. rewrite Nat2Z.id in E.
  assert (Fit : forall j (v : list num), length v = j -> fits [Z.of_nat j] v) by (intros j v Ev; unfold fits, fits_len; cbn; destruct (Z.ltb_spec (Z.of_nat j) 0); lia).
  assert (W1 : wf_shape [Z.of_nat (S n)]) by (apply wf_shape1; lia). assert (W0 : wf_shape [Z.of_nat n]) by (apply wf_shape1; lia). assert (HA : forall l, Forall any l) by (intros l; apply Forall_forall; intros; exact I).
  assert (F1 : forall (l : list num) a, length l = S n -> fits [Z.of_nat (S n)] (tl l ++ [a])) by (intros l a Hl; apply Fit; rewrite app_length; destruct l; cbn in *; lia).
  destruct HT as [HT1 HT2]. destruct T as [|row T']; [cbn in HT1; lia|]. cbn [tl hd] in E. cbn in HT1. assert (Hrow := Forall_inv HT2). assert (HT3 := Forall_inv_tail HT2). cbn beta in Hrow.
  pose proof (good_empty false dbg) as G. take E. match type of E0 with _ = Ok (?v, _) => destruct v as [t_from t_to] end.
  assert (HH : exists B1, Good m0 B1 [] /\ vec n m0 B1 t_from /\ vec n m0 B1 t_to).
  { destruct (list_qeqb _ _).
    - take E0. injection E0 as <- <- <-. destruct (t_const (P := any) G E1 W1) as (B1 & G1 & H1 & X1 & I1); [now apply F1|apply HA|]. exists B1. split; [exact G1|]. split; eexists; eauto.
    - take E0. destruct (t_const (P := any) G E1 W1) as (B1 & G1 & H1 & X1 & I1); [now apply F1|apply HA|]. take E0. injection E0 as <- <- <-.
      destruct (t_const (P := any) G1 E2 W1) as (B2 & G2 & H2 & X2 & I2); [apply Fit; rewrite app_length, map_length; cbn; lia|apply HA|]. exists B2. split; [exact G2|]. split; [eapply vec_grow; [exact H2|]|]; eexists; eauto. }
  clear E0. destruct HH as (B1 & G1 & V1 & V2).
  take E. destruct (t_const (P := any) G1 E0) as (B2 & G2 & H2 & X2 & I2); [apply wf_shape2; nia| |apply HA|].
  { apply fits_concat. split; [rewrite app_length, map_length; cbn; lia|]. apply Forall_app. split; [|constructor; [apply repeat_length|constructor]]. rewrite Forall_map. eapply Forall_impl; [|exact HT3]. cbv beta. intros l Hl. rewrite app_length. destruct l; cbn in *; lia. }
  clear E0. apply (vec_grow H2) in V1, V2.
  take E. destruct (t_const (P := any) G2 E0 W1) as (B3 & G3 & H3 & X3 & I3); [now apply F1|apply HA|]. clear E0. apply (vec_grow H3) in V1, V2. apply (info_grow H3) in I2.
  take E. destruct (t_const (P := any) G3 E0 W1) as (B4 & G4 & H4 & X4 & I4); [now apply F1|apply HA|]. clear E0. apply (vec_grow H4) in V1, V2. apply (info_grow H4) in I2, I3.
  take E. destruct (t_const (P := any) G4 E0 W1) as (B5 & G5 & H5 & X5 & I5); [now apply F1|apply HA|]. clear E0. apply (vec_grow H5) in V1, V2. apply (info_grow H5) in I2, I3, I4.
  take E. destruct (t_const (P := any) G5 E0 W0) as (B6 & G6 & H6 & X6 & I6); [now apply Fit|apply HA|]. clear E0. apply (vec_grow H6) in V1, V2. apply (info_grow H6) in I2, I3, I4, I5.
  take E. destruct (t_const (P := any) G6 E0) as (B7 & G7 & H7 & X7 & I7); [apply wf_shape0|reflexivity|apply HA|]. clear E0. apply (vec_grow H7) in V1, V2. apply (info_grow H7) in I2, I3, I4, I5, I6.
  take E. destruct (t_const (P := any) G7 E0) as (B8 & G8 & H8 & X8 & I8); [apply wf_shape0|reflexivity|apply HA|]. clear E0. apply (vec_grow H8) in V1, V2. apply (info_grow H8) in I2, I3, I4, I5, I6, I7.
  take E. destruct (t_const (P := any) G8 E0) as (B9 & G9 & H9 & X9 & I9); [apply wf_shape0|reflexivity|apply HA|]. clear E0. apply (vec_grow H9) in V1, V2. apply (info_grow H9) in I2, I3, I4, I5, I6, I7, I8.
  take E. match type of E0 with disjoint_lists _ _ _ = Ok (?v, _) => destruct v as [main routes] end. destruct (t_lists G9 E0 R0 Hk) as (BA & GA & HA' & XA & XR & IA). clear E0. apply (vec_grow HA') in V1, V2. apply (info_grow HA') in I2, I3, I4, I5, I6, I7, I8, I9.
  match type of E with _ ?mm = _ => assert (SA : Forall (stops n k main mm BA) routes) by (rewrite XR; apply Forall_forall; intros b Hb; apply in_seq in Hb; exists (b - S main); replace b with (S main + (b - S main)) at 1 by lia; apply IA; lia) end.
  take E. assert (HC : exists B', Good m10 B' [] /\ grow m9 BA m10 B').
  { pose (Inv := fun (_ : list nat) (_ : list nat) m' => exists B', Good m' B' [] /\ grow m9 BA m' B'). refine (@pfor_inv _ _ Inv _ [] routes [] m9 _ m10 _ _ E0).
    - exists BA. split; [exact GA|apply grow_refl].
    - intros done b cs ma cs' mb (rest & Hin) (Ba & Ga & Ta) Eb. assert (Hbi : In b routes) by (cbn [app] in Hin; rewrite Hin; apply in_or_app; right; now left). rewrite Forall_forall in SA. destruct (stops_grow Ta (SA _ Hbi)) as [j Jb].
      pose proof (info_grow Ta I6) as J6. pose proof (info_grow Ta I7) as J7. assert (Zb : indices ma b) by (destruct Jb as ((ps & Ej) & _); eapply indices_list; eauto).
      take Eb. destruct (t_gather eq_refl Ga J6 Jb Zb E1 I R0) as (Cl & Kl & Tl & Xl & Il). clear E1. apply (info_grow Tl) in J7.
      take Eb. destruct (t_red _ Kl Il E1) as (Cm & Km & Tm & Xm & Im). clear E1. apply (info_grow Tm) in J7.
      take Eb. injection Eb as <- <-. destruct (t_bin (sh := []) Km Im J7 E1) as (Cn & Kn & Tn & _ & _); [discriminate|discriminate|reflexivity|apply wf_shape0|now left|]. exists Cn. split; [exact Kn|]. repeat (eapply grow_trans; [eassumption|]). apply grow_refl. }
  clear E0. destruct HC as (BC & GC & TC). take E. destruct (good_constrain _ GC E0) as [GD TD]. clear E0. pose proof (grow_trans TC TD) as U1. clear TC TD.
  take E. destruct (t_const (P := index_of (Z.of_nat (S n))) GD E0 W1) as (BE & GE & TE & _ & IE).
  { apply Fit. now rewrite map_length, seq_length. }
  { apply Forall_forall. intros q Hin. apply in_map_iff in Hin. destruct Hin as (i & <- & Hin). apply in_seq in Hin. exists i. split; [lia|reflexivity]. }
  clear E0. pose proof (grow_trans U1 TE) as U2.
  take E. match type of E0 with pfor _ _ _ ?ma = Ok (?v, ?mb) => assert (HZ : exists B', Good mb B' [] /\ grow ma BE mb B' /\ Forall (scal mb B') v) end.
  { pose (Inv := fun (_ : list nat) (zs : list nat) m' => exists B', Good m' B' [] /\ grow m12 BE m' B' /\ Forall (scal m' B') zs). refine (@pfor_inv _ _ Inv _ [] routes [] m12 _ _ _ _ E0).
    - exists BE. split; [exact GE|]. split; [apply grow_refl|constructor].
    - intros done b cs ma cs' mb (rest & Hin) (Ba & Ga & Ta & Fa) Eb. assert (Hbi : In b routes) by (cbn [app] in Hin; rewrite Hin; apply in_or_app; right; now left). rewrite Forall_forall in SA. destruct (stops_grow (grow_trans U2 Ta) (SA _ Hbi)) as [j Jb].
      take Eb. destruct (t_size Ga Jb E1) as (z & -> & Bb & Gb & Tb & _ & Iz). injection Eb as <- <-. exists Bb. split; [exact Gb|]. split; [eapply grow_trans; eauto|]. apply Forall_app. split; [|constructor; [exists KSize, any; exact Iz|constructor]].
      eapply Forall_impl; [|exact Fa]. intros y Hy. exact (scal_grow Tb Hy). }
  clear E0. destruct HZ as (BF & GF & TF & FF). take E. destruct (t_const (P := any) GF E0) as (BG & GG & TG & _ & IG); [apply wf_shape0|reflexivity|apply HA|]. clear E0.
  pose proof (grow_trans (grow_trans U2 TF) TG) as U3. pose proof (info_grow (grow_trans TF TG) IE) as JE.
  match type of GG with RunProofs7.Good _ _ ?mm _ _ => match type of JE with info _ _ _ ?h _ _ _ => assert (He : env dbg n t_from t_to x10 x11 x12 x13 x17 h mm BG) end end.
  { split; [exact GG|]. split; [repeat split; first [exact (vec_grow U3 V1)|exact (vec_grow U3 V2)|eexists; exact (info_grow U3 I3)|eexists; exact (info_grow U3 I4)|eexists; exact (info_grow U3 I5)]|]. split; [eexists; exact (info_grow U3 I2)|]. split; [eexists; eexists; exact (info_grow U3 I9)|eexists; exact JE]. }
  assert (FG : Forall (scal _ BG) _) by (eapply Forall_impl; [|exact FF]; intros y Hy; exact (scal_grow TG Hy)).
  take E. destruct (w_compare He (ex_intro _ _ (ex_intro _ _ IG)) FG E0) as (BH & HH & TH & _). clear E0.
  take E. destruct (w_constrain _ HH E0) as [HI TI]. clear E0. pose proof (grow_trans TH TI) as U4.
  assert (Hq1 : (3 * Z.quot (Z.of_nat n) (Z.of_nat k))%Z = Z.of_nat (3 * (n / k))) by (rewrite Z.quot_div_nonneg by lia; rewrite <- Nat2Z.inj_div; lia). rewrite Hq1 in E.
  eapply w_rest; [exact Hn|exact Hs|exact HI| | | | | |exact E].
  - exact (scal_grow U4 (ex_intro _ _ (ex_intro _ _ (info_grow U3 I8)))).
  - eapply Forall_impl; [|exact SA]. intros y Hy. exact (stops_grow U4 (stops_grow U3 Hy)).
  - eapply Forall_impl; [|exact FG]. intros y Hy. exact (scal_grow U4 Hy).
  - rewrite XR, seq_length. lia.
  - rewrite Nat2Z.id. lia.
Qed.
End Whole.

Theorem tw_run dbg n k demand capacity T open close service : let q := 3 * (n / k) in tw_proper n k demand capacity T open close service -> (Z.of_nat (S n * S n) < 2147483648)%Z -> 1 <= q <= n + 1 ->
  exists b m g obj, cvrp_time_windows (0%Qc :: demand) k capacity T open close service no_model = Ok ((b - 1, seq b k), m) /\ history (build m) = Ok g /\ p_obj m = Some obj /\ faithful false dbg m g /\
    forall st, running false dbg m g st -> exists routes, length routes = k /\ Permutation (concat routes) (seq 0 n) /\
      (forall i, i < k -> pin_of (nodes false dbg m) g st (b + i) = Some (still (numbers (nth i routes [])))) /\
      pin_of (nodes false dbg m) g st obj = Some (still [qsum_of (map (reversed_trip T) routes)]) /\
      exists sat, Forall2 (fun c b => pin_of (nodes false dbg m) g st c = Some (still [b2q b])) (p_cons m) sat /\
        (Forall (fun b => b = true) sat <-> Forall (fun r => (GenSpec.total demand r <= capacity)%Qc /\ length r <= q /\ on_time T open close service (map S r) /\ (length r < q -> (last (leaving T open service 0 0 (map S r)) 0 <= zq 1000000)%Qc)) routes).
Proof.
  intros q HP Hs Hq. destruct (tw_model HP Hq) as (b & m & E & H1 & Dm & H). destruct (tw_good dbg HP Hs Hq E) as (B & t & G). destruct (good_runs G) as (g & Eg & L & Fa). assert (Hk : 1 <= k) by apply HP.
  assert (Hobj : exists obj, p_obj m = Some obj).
  { pose (b0 := seq 0 n :: repeat [] (k - 1)). destruct (H (fun i => numbers (nth (i - b) b0 [])) b0) as [(x & Hx & _) _]; eauto.
    - unfold b0. cbn [length]. rewrite repeat_length. lia.
    - unfold b0. cbn [concat]. rewrite repeat_concat, app_nil_r. apply Permutation_refl.
    - intros i _. now replace (b + i - b) with i by lia. }
  destruct Hobj as [obj Ho]. exists b, m, g, obj. split; [exact E|]. split; [exact Eg|]. split; [exact Ho|]. split; [exact Fa|]. intros st Hr. destruct Fa as (_ & Fa & _). destruct (Fa st Hr) as (dv & Hd & Sh).
  assert (HDm : forall i, i < k -> exists ps ct, nth_error (p_syms m) (b + i) = Some (Sym (KListOf (b - 1) (Z.of_nat n) k i) ps [-1]%Z ct)) by (intros i Hi; exact (Dm i Hi)).
  destruct (HDm 0 Hk) as (ps & ct & E0). destruct (sound_at (g_sound G) _ E0) as (_ & _ & S0). cbn [s_cls s_pred] in S0. destruct ps as [|y [|]]; try contradiction. destruct S0 as (-> & Hm & _).
  destruct (main_at (g_sound G) _ Hm eq_refl) as (t2 & Et & Ect & _). destruct (Hd _ _ Et) as [_ Sd]. rewrite Ect in Sd. cbn [shared] in Sd. destruct Sd as (ls & Hp & Ll & Hrows). rewrite Nat2Z.id in Hp. destruct (partition_lists Hp) as (routes & -> & HPm). rewrite map_length in Ll.
  assert (Hdv : forall i, i < k -> dv (b + i) = numbers (nth i routes [])).
  { intros i Hi. destruct (HDm i Hi) as (ps & c2 & Ei). specialize (Hrows (b + i) i). rewrite Ei in Hrows. specialize (Hrows eq_refl). symmetry. apply (nth_error_nth _ _ (numbers [])) in Hrows. rewrite map_nth in Hrows. exact Hrows. }
  destruct (H dv routes Ll HPm Hdv) as [(x & Hx & Hy) (bs & Hb & Hf)].
  exists routes. split; [exact Ll|]. split; [exact HPm|]. split; [|split].
  - intros i Hi. apply (shown_value Sh). rewrite <- Hdv by exact Hi. destruct (HDm i Hi) as (ps & c2 & Ei). apply y_dec with (1 := Ei). reflexivity.
  - apply (shown_value Sh). congruence.
  - exists bs. split; [|exact Hf]. clear - Hb Sh. induction Hb; constructor; auto. now apply (shown_value Sh).
Qed.
