(** Whole models: bin packing. *)
From Coq Require Import Relations Permutation.
From Verif Require Import Base Num SliceModel ShapeModel ShapeSpec StateDataModel NodeSpec NodeShape NodeLib BinaryModel BasicModel BasicSpec ViewModel ElemModel NaryModel ReduceModel BoundsModel
  PermModel AdvModel AdvSpec AdvSpec2 GraphModel GraphSpec ProposeModel ProposeSpec PyModel PySpec GenModel GenSpec DisjointModel DisjointSpec GroupModel GroupSpec PyProofs PyRules GenProofs7 RunModel RunSpec RunSpec2 RunProofs RunProofs2 RunProofs3 RunProofs4 RunProofs6 RunProofs7 RunProofs8 FileProofs2 FileProofs3.
Set Implicit Arguments.

Ltac take E := let a := fresh "x" in let m1 := fresh "m" in let E1 := fresh "E" in apply bind_inv in E; destruct E as (a & m1 & E1 & E).
Lemma late_self x : lateb [x] x = true.
Proof. cbn. now rewrite Nat.eqb_refl. Qed.
Lemma unless_inv b m (u : unit) m' : unless b m = Ok (u, m') -> m' = m /\ b = false.
Proof. unfold unless. destruct b; [discriminate|]. intros [= _ <-]. auto. Qed.
Lemma require_vector_inv w m u m' : require_vector w m = Ok (u, m') -> m' = m.
Proof. unfold require_vector. intros E. now apply unless_inv in E as [-> _]. Qed.

Section Bins.
Variables strict dbg : bool.
Variables weights : list num.
Variable capacity : num.
Let n := length weights.
Hypothesis Hn : 1 <= n.
Hypothesis Hs : (Z.of_nat n < 2147483648)%Z.

Lemma bp_good m : bin_packing weights capacity no_model = Ok ((2, seq 3 n), m) -> exists B t, Good strict dbg m B t.
Proof.
  intros E. unfold bin_packing in E. take E. apply require_vector_inv in E0. subst m0. cbv zeta in E. take E. apply unless_inv in E0. destruct E0 as [-> _]. take E. apply unless_inv in E0. destruct E0 as [-> _]. take E. apply unless_inv in E0. destruct E0 as [-> _].
  unfold zlen in E. fold n in E. pose proof (good_empty strict dbg) as G.
  assert (Hw : fits [Z.of_nat n] weights) by (unfold fits, fits_len; cbn; destruct (Z.ltb_spec (Z.of_nat n) 0); [lia|]; fold n; lia).
  take E. destruct (t_const (P := any) G E0) as (B1 & G1 & H1 & X1 & I1); [apply wf_shape1; lia|exact Hw|apply Forall_forall; intros; exact I|]. clear E0 G.
  take E. destruct (t_const (P := any) G1 E0) as (B2 & G2 & H2 & X2 & I2); [apply wf_shape0|reflexivity|repeat constructor|]. clear E0 G1. apply (info_grow H2) in I1.
  take E. destruct x5 as [main bins]. rewrite Nat2Z.id in E0. destruct (t_bits G2 E0) as (B3 & G3 & H3 & X3 & Xb & I3); [lia|lia|]. clear E0 G2. apply (info_grow H3) in I1, I2. subst bins.
  assert (Hin : forall b, In b (seq (S main) n) -> exists i, i < n /\ b = S main + i) by (intros b Hb; apply in_seq in Hb; exists (b - S main); lia).
  take E. pose (Inv := fun (_ : list nat) (_ : unit) m' => exists B', Good strict dbg m' B' [] /\ grow m2 B3 m' B').
  assert (HI : Inv ([] ++ seq (S main) n) x5 m3).
  { refine (@pfor_inv _ _ Inv _ [] (seq (S main) n) tt m2 x5 m3 _ _ E0).
    - exists B3. split; [exact G3|apply grow_refl].
    - intros done b [] ma [] mb (rest & Hb) (Ba & Ga & Hga) Eb. assert (Hbi : In b (seq (S main) n)) by (cbn [app] in Hb; rewrite Hb; apply in_or_app; right; now left). destruct (Hin b Hbi) as (i & Hi & ->).
      pose proof (info_grow Hga I1) as J1. pose proof (info_grow Hga I2) as J2. pose proof (info_grow Hga (I3 i Hi)) as J3.
      take Eb. destruct (t_bin (sh := [Z.of_nat n]) Ga J3 J1 E1) as (Bb & Gb & Hgb & _ & Ib); [discriminate|discriminate|apply bin_new_same; rewrite size1; lia|apply wf_shape1; lia|now left|]. clear E1.
      take Eb. destruct (t_red _ Gb Ib E1) as (Bc & Gc & Hgc & _ & Ic). clear E1. apply (info_grow Hgb) in J2. apply (info_grow Hgc) in J2.
      take Eb. destruct (t_bin (sh := []) Gc Ic J2 E1) as (Bd & Gd & Hgd & _ & Id); [discriminate|discriminate|reflexivity|apply wf_shape0|now left|].
      destruct (t_constrain _ Gd Eb) as [Ge Hge]. exists Bd. split; [exact Ge|]. repeat (eapply grow_trans; [eassumption|]). apply grow_refl. }
  destruct HI as (B4 & G4 & H4). clear E0. assert (I3' : forall i, i < n -> info m3 B4 [] (S main + i) (KBitOf main (Z.of_nat n) n i) [Z.of_nat n] any) by (intros i Hi; exact (info_grow H4 (I3 i Hi))).
  take E. destruct (t_const (P := any) G4 E0) as (B5 & G5 & H5 & X5 & I5); [apply wf_shape0|reflexivity|repeat constructor|]. clear E0.
  take E. destruct (t_const (P := any) G5 E0) as (B6 & G6 & H6 & X6 & I6); [apply wf_shape0|reflexivity|repeat constructor|]. clear E0. apply (info_grow H6) in I5.
  assert (I7 : forall i, i < n -> info m5 B6 [] (S main + i) (KBitOf main (Z.of_nat n) n i) [Z.of_nat n] any) by (intros i Hi; exact (info_grow H6 (info_grow H5 (I3' i Hi)))).
  assert (Hx6 : x6 < length (p_syms m5)) by (eapply info_lt; eauto).
  take E. pose (Inv2 := fun (done : list nat) (obj : nat) m' => exists B', grow m5 B6 m' B' /\
    ((obj = x7 /\ Good strict dbg m' B' []) \/ (length (p_syms m5) <= obj /\ Good strict dbg m' B' [obj] /\ making m' B' NAdd obj []))).
  assert (HI : Inv2 ([] ++ seq (S main) n) x8 m6).
  { refine (@pfor_inv _ _ Inv2 _ [] (seq (S main) n) x7 m5 x8 m6 _ _ E0).
    - exists B6. split; [apply grow_refl|]. left. auto.
    - intros done b obj ma obj' mb (rest & Hb) (Ba & Hga & HH) Eb. assert (Hbi : In b (seq (S main) n)) by (cbn [app] in Hb; rewrite Hb; apply in_or_app; right; now left). destruct (Hin b Hbi) as (i & Hi & ->).
      assert (HG : exists t, Good strict dbg ma Ba t /\ (forall x c sh P, info m5 B6 [] x c sh P -> info ma Ba t x c sh P) /\ (t = [] /\ obj = x7 \/ t = [obj] /\ making ma Ba NAdd obj [])).
      { destruct HH as [[Ho Ga]|(Ho & Ga & Hm)]; [exists []|exists [obj]]; (split; [exact Ga|]); (split; [|auto]); intros xx c sh P Ix; pose proof (info_lt Ix); apply (info_grow Hga) in Ix; [exact Ix|].
        destruct Ix as (K1 & K2 & _ & K4). split; [exact K1|]. split; [exact K2|]. split; [|exact K4]. cbn. rewrite (proj2 (Nat.eqb_neq _ _)); [reflexivity|lia]. }
      destruct HG as (t & Ga & Hinf & Ht). pose proof (Hinf _ _ _ _ (I7 i Hi)) as J1. pose proof (Hinf _ _ _ _ I5) as J2. pose proof (Hinf _ _ _ _ I6) as J3.
      take Eb. destruct (t_red _ Ga J1 E1) as (Bb & Gb & Hgb & _ & Ib). clear E1. apply (info_grow Hgb) in J2, J3.
      take Eb. unfold ge in E1. destruct (t_bin (sh := []) Gb J2 Ib E1) as (Bc & Gc & Hgc & _ & Ic); [discriminate|discriminate|reflexivity|apply wf_shape0|now left|]. apply (info_grow Hgc) in J3.
      pose proof (grow_trans Hgb Hgc) as Hgd. unfold iadd, inplace in Eb. take Eb. apply look_inv in E2. destruct E2 as [-> El]. destruct Ht as [[-> ->]|[-> Hmk]].
      + assert (Hc : s_cls x11 = KConst [0%Qc]) by (destruct J3 as ((ps & Eq) & _); rewrite El in Eq; injection Eq as ->; reflexivity). rewrite Hc in Eb. cbn [same_nop] in Eb.
        destruct (t_nary (sh := []) NAdd Gc Eb) as (Bd & Gd & Hgx & Xd & Md); [repeat constructor; eauto|reflexivity|apply wf_shape0|].
        exists Bd. split; [eapply grow_trans; [exact Hga|]; eapply grow_trans; eauto|]. right. split; [|auto]. rewrite Xd. destruct Hga as [Hga _]. destruct Hgd as [Hgd _]. pose proof (ext_length Hga). pose proof (ext_length Hgd). lia.
      + assert (Hmk' : making m8 Bc NAdd obj []) by (eapply making_grow; eauto). assert (Hc : s_cls x11 = KNary NAdd) by (destruct Hmk' as ((ps & Eq) & _); rewrite El in Eq; injection Eq as ->; reflexivity). rewrite Hc in Eb. cbn [same_nop] in Eb.
        take Eb. injection Eb as <- <-. destruct (t_add Gc (late_self obj) Hmk' Ic E2) as (Gd & Hgx & Md). exists Bc. split; [eapply grow_trans; [exact Hga|]; eapply grow_trans; eauto|]. right. split; [|auto].
        destruct HH as [[-> _]|(Ho & _)]; [|exact Ho]. exfalso. destruct Hmk' as ((ps & Eq) & _). destruct J3 as ((ps' & Eq') & _). congruence. }
  destruct HI as (B7 & _ & HH). take E. injection E as _ _ <-. destruct HH as [[_ G7]|(_ & G7 & _)]; destruct (t_minimize _ G7 E1) as (G8 & _); eauto.
Qed.
End Bins.

(** Bits as bins. *)
Definition bin_of (owner : list nat) (s : nat) : list nat := filter (fun j => nth j owner 0 =? s) (seq 0 (length owner)).
Lemma map_nth_seq {A C} (f : A -> C) (l : list A) d : map f l = map (fun j => f (nth j l d)) (seq 0 (length l)).
Proof. induction l as [|a l IH]; [reflexivity|]. cbn [map length seq nth]. f_equal. rewrite <- seq_shift, map_map. exact IH. Qed.
Lemma bits_bin owner s : indicator owner s = bits (length owner) (bin_of owner s).
Proof.
  unfold indicator, bits. rewrite (map_nth_seq _ owner 0). apply map_ext_in. intros j Hj. unfold ind, bin_of. destruct (Nat.eqb_spec (nth j owner 0) s) as [E|E].
  - replace (existsb _ _) with true; [reflexivity|]. symmetry. apply existsb_exists. exists j. split; [|apply Nat.eqb_refl]. apply filter_In. split; [exact Hj|]. now apply Nat.eqb_eq.
  - replace (existsb _ _) with false; [reflexivity|]. symmetry. apply Bool.not_true_iff_false. intros H. apply existsb_exists in H. destruct H as (i & Hi & He). apply Nat.eqb_eq in He. subst i. apply filter_In in Hi. destruct Hi as [_ Hi]. apply Nat.eqb_eq in Hi. congruence.
Qed.
Lemma insert_perm (a c : nat) (g : nat -> list nat) : forall k st, st <= c < st + k -> Permutation (concat (map (fun s => if c =? s then a :: g s else g s) (seq st k))) (a :: concat (map g (seq st k))).
Proof.
  induction k as [|k IH]; intros st H; [lia|]. cbn [seq map concat]. destruct (Nat.eqb_spec c st) as [->|N].
  - cbn [app]. constructor. apply Permutation_app_head. erewrite map_ext_in; [apply Permutation_refl|]. intros s Hs. cbn beta. apply in_seq in Hs. destruct (Nat.eqb_spec st s); [lia|reflexivity].
  - rewrite (IH (S st)) by lia. symmetry. apply Permutation_middle.
Qed.
Lemma classes_perm (f : nat -> nat) k l : Forall (fun j => f j < k) l -> Permutation (concat (map (fun s => filter (fun j => f j =? s) l) (seq 0 k))) l.
Proof.
  induction l as [|a l IH]; intros F. { cbn [filter]. clear. induction (seq 0 k) as [|s t IHt]; [apply Permutation_refl|exact IHt]. }
  inversion F; subst. cbn [filter]. rewrite insert_perm by lia. constructor. now apply IH.
Qed.
Lemma bins_perm owner k : Forall (fun s => s < k) owner -> Permutation (concat (map (bin_of owner) (seq 0 k))) (seq 0 (length owner)).
Proof.
  intros F. apply classes_perm. apply Forall_forall. intros j Hj. apply in_seq in Hj. rewrite Forall_forall in F. apply F, nth_In. lia.
Qed.

Lemma nth_error_seq' k i : i < k -> nth_error (seq 0 k) i = Some i.
Proof. intros H. rewrite (nth_error_nth' (seq 0 k) 0) by (rewrite seq_length; exact H). now rewrite seq_nth. Qed.
Theorem bin_packing_run strict dbg weights capacity : let n := length weights in
  1 <= n -> (Z.of_nat n < 2147483648)%Z -> nonnegative weights -> (0 < capacity)%Qc -> Forall (fun w => (w <= capacity)%Qc) weights ->
  exists m g obj, bin_packing weights capacity no_model = Ok ((2, seq 3 n), m) /\ history (build m) = Ok g /\ p_obj m = Some obj /\ faithful strict dbg m g /\
    forall st, running strict dbg m g st -> exists bins, length bins = n /\ Permutation (concat bins) (seq 0 n) /\
      (forall i, i < n -> pin_of (nodes strict dbg m) g st (3 + i) = Some (still (bits n (nth i bins [])))) /\
      pin_of (nodes strict dbg m) g st obj = Some (still [used bins]) /\
      exists sat, Forall2 (fun c b => pin_of (nodes strict dbg m) g st c = Some (still [b2q b])) (p_cons m) sat /\
        (Forall (fun b => b = true) sat <-> Forall (fun b => GenSpec.total weights b <= capacity)%Qc bins).
Proof.
  intros n Hn Hs W0 Hc Hw. destruct (bin_packing_model Hn Hs W0 Hc Hw) as (m & E & _ & D & H). destruct (@bp_good strict dbg weights capacity Hn Hs m E) as (B & t & G). destruct (good_runs G) as (g & Eg & L & Fa).
  assert (Hobj : exists obj, p_obj m = Some obj).
  { pose (b0 := seq 0 n :: repeat [] (n - 1)). destruct (H (fun i => bits n (nth (i - 3) b0 [])) b0) as [(x & Hx & _) _]; eauto.
    - unfold b0. cbn [length]. rewrite repeat_length. fold n in Hn. lia.
    - unfold b0. cbn [concat]. rewrite repeat_concat, app_nil_r. apply Permutation_refl.
    - intros i _. now replace (3 + i - 3) with i by lia. }
  destruct Hobj as [obj Ho]. exists m, g, obj. split; [exact E|]. split; [exact Eg|]. split; [exact Ho|]. split; [exact Fa|]. intros st Hr. destruct Fa as (_ & Fa & _). destruct (Fa st Hr) as (dv & Hd & Sh).
  assert (HD : forall i, i < n -> exists ps ct, nth_error (p_syms m) (3 + i) = Some (Sym (KBitOf 2 (Z.of_nat n) n i) ps [Z.of_nat n] ct)) by (intros i Hi; exact (D i Hi)).
  destruct (HD 0 Hn) as (ps & ct & E0). destruct (sound_at (g_sound G) _ E0) as (_ & _ & S0). cbn [s_cls s_pred] in S0. destruct ps as [|y [|]]; try contradiction. destruct S0 as (-> & Hm & _).
  destruct (main_at (g_sound G) _ Hm eq_refl) as (t2 & Et & Ect & _). destruct (Hd _ _ Et) as [_ Sd]. rewrite Ect in Sd. cbn [shared] in Sd. destruct Sd as (rows & (owner & Lo & Fo & Er) & Hrows). rewrite Nat2Z.id in Lo.
  set (bins := map (bin_of owner) (seq 0 n)). assert (Hdv : forall i, i < n -> dv (3 + i) = bits n (nth i bins [])).
  { intros i Hi. destruct (HD i Hi) as (ps & c2 & Ei). specialize (Hrows (3 + i) i). rewrite Ei in Hrows. specialize (Hrows eq_refl). rewrite Er in Hrows. rewrite nth_error_map, nth_error_seq' in Hrows by exact Hi. injection Hrows as Hrow. change (3 + i) with (S (S (S i))). rewrite <- Hrow.
    rewrite bits_bin, Lo. f_equal. unfold bins. symmetry. apply nth_error_nth with (d := []). rewrite nth_error_map, nth_error_seq' by exact Hi. reflexivity. }
  destruct (H dv bins) as [(x & Hx & Hy) (bs & Hb & Hf)]; [unfold bins; now rewrite map_length, seq_length|unfold bins; pose proof (bins_perm Fo) as HP; rewrite Lo in HP; exact HP|exact Hdv|].
  exists bins. split; [unfold bins; now rewrite map_length, seq_length|]. split; [unfold bins; pose proof (bins_perm Fo) as HP; rewrite Lo in HP; exact HP|]. split; [|split].
  - intros i Hi. apply (shown_value Sh). rewrite <- Hdv by exact Hi. destruct (HD i Hi) as (ps & c2 & Ei). apply y_dec with (1 := Ei). reflexivity.
  - apply (shown_value Sh). congruence.
  - exists bs. split; [|exact Hf]. clear - Hb Sh. induction Hb; constructor; auto. now apply (shown_value Sh).
Qed.
