(** Bin packing: the generator's model computes what it should. *)
From Verif Require Import Base Num SliceModel ShapeModel ShapeSpec SliceSpec StateDataModel NodeSpec BinaryModel BasicModel BasicSpec ViewModel ElemModel NaryModel
  ReduceModel BoundsModel PermModel AdvModel NarySpec ReduceSpec BinarySpec ElemSpec PermSpec ViewSpec AdvSpec ProposeSpec PyModel GenModel PySpec GenSpec PyProofs PyValues PyRules GenProofs.
Set Implicit Arguments.

Lemma qsum_ext {A} (f g : A -> num) l : (forall x, In x l -> f x = g x) -> qsum_of (map f l) = qsum_of (map g l).
Proof. intros H. f_equal. now apply map_ext_in. Qed.
Lemma qsum_plus {A} (f g : A -> num) l : qsum_of (map (fun x => (f x + g x)%Qc) l) = (qsum_of (map f l) + qsum_of (map g l))%Qc.
Proof. induction l as [|a l IH]; cbn [map qsum_of]; [ring|]. rewrite IH. ring. Qed.
Lemma qsum_0 {A} (l : list A) : qsum_of (map (fun _ => 0%Qc) l) = 0%Qc.
Proof. induction l as [|a l IH]; cbn [map qsum_of]; [reflexivity|]. rewrite IH. ring. Qed.
Lemma qsum_point (f : nat -> num) x s n : s <= x < s + n -> qsum_of (map (fun j => (b2q (Nat.eqb j x) * f j)%Qc) (seq s n)) = f x.
Proof.
  revert s; induction n as [|n IH]; intros s H; [lia|]. cbn [seq map qsum_of]. destruct (Nat.eqb_spec s x) as [->|Hne].
  - rewrite (qsum_ext _ (fun _ => 0%Qc)), qsum_0; [cbn; ring|]. intros j Hj. apply in_seq in Hj. destruct (Nat.eqb_spec j x); [lia|]. cbn. ring.
  - rewrite IH by lia. cbn. ring.
Qed.
Lemma qsum_bits (f : nat -> num) n b : NoDup b -> Forall (fun i => i < n) b ->
  qsum_of (map (fun j => (b2q (existsb (Nat.eqb j) b) * f j)%Qc) (seq 0 n)) = qsum_of (map f b).
Proof.
  induction b as [|x b IH]; intros Hd Hb.
  - cbn [existsb map qsum_of]. rewrite (qsum_ext _ (fun _ => 0%Qc)), qsum_0; [reflexivity|]. intros; cbn; ring.
  - inversion Hd as [|x' b' Hx Hd']; inversion Hb as [|x'' b'' Hl Hb']; subst. cbn [map qsum_of]. rewrite <- (IH Hd' Hb'), <- (@qsum_point f x 0 n) by lia.
    rewrite <- qsum_plus. apply qsum_ext. intros j _. cbn [existsb]. destruct (Nat.eqb_spec j x) as [->|]; cbn [orb].
    + replace (existsb (Nat.eqb x) b) with false; [cbn; ring|]. symmetry. apply not_true_is_false. intros E. apply existsb_exists in E as (y & Hy & E).
      apply Nat.eqb_eq in E. now subst.
    + cbn. ring.
Qed.
Lemma bits_length n b : length (bits n b) = n.
Proof. unfold bits. now rewrite map_length, seq_length. Qed.
Lemma bits_weights n b (w : list num) : length w = n -> NoDup b -> Forall (fun i => i < n) b ->
  qsum_of (map (fun p => (fst p * snd p)%Qc) (combine (bits n b) w)) = total w b.
Proof.
  intros Hw Hd Hb. unfold total. rewrite <- (@qsum_bits (fun i => nth i w 0%Qc) n b Hd Hb). f_equal. unfold bits.
  rewrite <- (@seq_nth_id _ w 0%Qc n Hw) at 1.
  generalize (seq 0 n) as l. induction l as [|a l IH]; [reflexivity|]. cbn [map combine fst snd]. now rewrite IH.
Qed.
Lemma qsum_ones {A} (l : list A) : qsum_of (map (fun _ => 1%Qc) l) = zq (Z.of_nat (length l)).
Proof.
  induction l as [|a l IH]; [reflexivity|]. cbn [map qsum_of length]. rewrite IH. change 1%Qc with (zq 1). rewrite zq_plus. f_equal. lia.
Qed.
Lemma bits_count n b : NoDup b -> Forall (fun i => i < n) b -> qsum_of (bits n b) = zq (Z.of_nat (length b)).
Proof.
  intros Hd Hb. rewrite <- qsum_ones, <- (@qsum_bits (fun _ => 1%Qc) n b Hd Hb). unfold bits. apply qsum_ext. intros. ring.
Qed.
Lemma bits_used n b : NoDup b -> Forall (fun i => i < n) b -> qleb 1%Qc (qsum_of (bits n b)) = match b with [] => false | _ => true end.
Proof.
  intros Hd Hb. rewrite (bits_count Hd Hb). destruct (qleb_spec 1%Qc (zq (Z.of_nat (length b)))) as [H|H]; change 1%Qc with (zq 1) in H.
  - apply (proj1 (zq_le _ _)) in H. destruct b; [cbn in H; lia|reflexivity].
  - destruct b as [|x b]; [reflexivity|]. exfalso. apply H. apply zq_le. cbn [length]. lia.
Qed.

Definition nonempty (b : list nat) : bool := match b with [] => false | _ => true end.
Lemma used_sum bins : used bins = qsum_of (map (fun b => b2q (nonempty b)) bins).
Proof.
  unfold used. induction bins as [|b bins IH]; [reflexivity|]. cbn [filter map qsum_of]. rewrite <- IH.
  destruct b; cbn [nonempty b2q length]; [now rewrite Qcplus_0_l|]. change 1%Qc with (zq 1). rewrite zq_plus. f_equal. lia.
Qed.

Lemma firstn_snoc {A} (l : list A) k d : k < length l -> firstn (S k) l = firstn k l ++ [nth k l d].
Proof. revert k; induction l as [|a l IH]; intros [|k] H; cbn in H; try lia; [reflexivity|]. cbn [firstn nth app]. f_equal. apply IH. lia. Qed.
Lemma zip_sum (l : list num) : forall acc, fold_left (fun acc b => zip_with Qcplus b acc) (map (fun x => [x]) l) [acc] = [(acc + qsum_of l)%Qc].
Proof.
  induction l as [|a l IH]; intros acc; cbn [map fold_left qsum_of]; [f_equal; ring|]. cbn [zip_with combine map fst snd]. rewrite IH. f_equal. ring.
Qed.
Lemma nary_sum (l : list num) : l <> [] -> nary_fun Qcplus (length l) (map (fun x => [x]) l) = Some [qsum_of l].
Proof.
  intros H. destruct l as [|a l]; [contradiction|]. unfold nary_fun. cbn [map]. cbn [length]. rewrite map_length, Nat.eqb_refl. cbn [andb].
  replace (forallb _ _) with true; [f_equal; apply zip_sum|]. symmetry. apply forallb_forall. intros x Hx. apply in_map_iff in Hx as (y & <- & _). reflexivity.
Qed.

Section BinPacking.
Variables (weights : list num) (capacity : num) (bins : list (list nat)) (dv : nat -> list num).
Let n := length weights.
Hypothesis Hn : 1 <= n.
Hypothesis Hs : (Z.of_nat n < 2147483648)%Z.
Hypothesis W0 : nonnegative weights.
Hypothesis Hc : (0 < capacity)%Qc.
Hypothesis Hw : Forall (fun w => (w <= capacity)%Qc) weights.
Hypothesis Hb : length bins = n.
Hypothesis Hd : Forall (fun b => NoDup b /\ Forall (fun i => i < n) b) bins.
Hypothesis Hdv : forall i, i < n -> dv (3 + i) = bits n (nth i bins []).

Lemma bin_fine i : i < n -> NoDup (nth i bins []) /\ Forall (fun j => j < n) (nth i bins []).
Proof. intros H. rewrite Forall_forall in Hd. apply Hd. apply nth_In. lia. Qed.

(** The constraints. *)
Lemma bp_constraints w c m (Q : unit -> pym -> Prop) :
  open_ nobody m -> fact nobody m dv w (KConst weights) [Z.of_nat n] true weights -> fact nobody m dv c (KConst [capacity]) [] true [capacity] ->
  (forall i, i < n -> fact nobody m dv (3 + i) (KBitOf 2 (Z.of_nat n) n i) [Z.of_nat n] true (bits n (nth i bins []))) ->
  (forall m' ks, grows nobody ks m m' -> Forall2 (holds nobody m' dv) ks (map (fun b => qleb (total weights b) capacity) bins) -> Q tt m') ->
  runs (pfor (seq 3 n) (fun _ b => do a <- binop BMul b w ; do a <- red RAdd a ; do a <- binop BLe a c ; add_constraint a) tt) m Q.
Proof.
  intros Ho Fw Fc Fb HQ.
  apply runs_pfor with (I := fun done _ m' => exists ks, grows nobody ks m m' /\
    Forall2 (holds nobody m' dv) ks (map (fun b => qleb (total weights b) capacity) (firstn (length done) bins))).
  - exists []. split; [now apply grows_refl|]. constructor.
  - intros done x todo _ m1 E (ks & G & HF). apply seq_mid in E as [-> Hi]. pose proof (Fb _ Hi) as F. grown G.
    destruct (bin_fine Hi) as [Hnd Hlt].
    apply runs_bind. eapply runs_same; [exact O|exact F|exact Fw|discriminate|discriminate| | | | |].
    { rewrite size1; lia. } { cbn. destruct (Z.ltb_spec (Z.of_nat n) 0); [lia|reflexivity]. } { rewrite bits_length. cbn. lia. } { now rewrite bits_length. }
    intros a m2 S2 F2. advance S2.
    apply runs_bind. eapply runs_sum; [exact O|exact F2|]. intros s m3 S3 F3. advance S3.
    apply runs_bind. eapply runs_scalars; [exact O|exact F3|exact Fc|discriminate|discriminate|]. intros k m4 S4 F4. advance S4.
    eapply runs_constrain; [exact O|exact F4|reflexivity|]. intros m5 G5. grown G5.
    assert (K : grows nobody ks m m4) by exact (grows_step (grows_step (grows_step G S2) S3) S4).
    exists (ks ++ [k]). split; [exact (grows_trans K G5)|].
    rewrite app_length. cbn [length]. replace (length done + 1) with (S (length done)) by lia. rewrite (@firstn_snoc _ bins (length done) []) by lia. rewrite map_app.
    apply Forall2_app.
    + eapply Forall2_imp; [|exact HF]. intros y b. apply holds_keeps. apply keeps_trans with m4; [|now destruct G5].
      apply keeps_trans with m3; [|now destruct S4]. apply keeps_trans with m2; [now destruct S2|now destruct S3].
    + constructor; [|constructor]. do 3 eexists. rewrite le_holds in F4. unfold bop_total in F4. cbn [bop_func] in F4.
      rewrite (@bits_weights n _ weights eq_refl Hnd Hlt) in F4. exact F4.
  - intros [] m' (ks & G & HF). rewrite seq_length, <- Hb, firstn_all in HF. now apply HQ with ks.
Qed.

(** The objective: a sum to which a term is added for every bin. *)
Lemma bp_objective one obj m (Q : nat -> pym -> Prop) :
  open_ nobody m -> fact nobody m dv one (KConst [1%Qc]) [] true [1%Qc] -> fact nobody m dv obj (KConst [0%Qc]) [] true [0%Qc] ->
  (forall i, i < n -> fact nobody m dv (3 + i) (KBitOf 2 (Z.of_nat n) n i) [Z.of_nat n] true (bits n (nth i bins []))) ->
  (forall x m' ps, keeps (fun y => length (p_syms m) <= y) m m' -> p_cons m' = p_cons m ->
     nth_error (p_syms m') x = Some (Sym (KNary NAdd) ps [] true) -> yields m' dv x [used bins] -> Q x m') ->
  runs (pfor (seq 3 n) (fun obj b => do a <- red RAdd b ; do a <- ge a one ; iadd obj a) obj) m Q.
Proof.
  intros Ho F1 F0 Fb HQ. destruct n as [|n'] eqn:En; [lia|]. cbn [seq pfor]. pose proof (Fb 0 ltac:(lia)) as Fz. rewrite <- En in *.
  apply runs_bind. destruct (@bin_fine 0 ltac:(lia)) as [Hnd Hlt].
  apply runs_bind. eapply runs_sum; [exact Ho|exact Fz|]. intros s m1 S1 Fs. advance S1.
  unfold ge. apply runs_bind. eapply runs_scalars; [exact O|exact F1|exact Fs|discriminate|discriminate|]. intros t m2 S2 Ft. advance S2.
  rewrite le_holds, (bits_used Hnd Hlt) in Ft. fold (nonempty (nth 0 bins [])) in Ft.
  (* the sum is created *)
  pose proof F0 as [[p0 E0] [_ Y0]]. pose proof Ft as [[pt Et] [_ Yt]].
  set (x := length (p_syms m2)). set (B := fun y => y = x).
  assert (HB : forall z, z < length (p_syms m2) -> ~ B z) by (unfold B, x; intros; lia).
  unfold iadd at 1, inplace. apply runs_bind. eapply runs_look; [exact E0|]. cbn [s_cls same_nop]. unfold nary. apply runs_bind. cbn [looks].
  apply runs_bind. eapply runs_look; [exact E0|]. apply runs_bind. apply runs_bind. eapply runs_look; [exact Et|]. apply runs_bind. apply runs_ret. apply runs_ret.
  apply runs_ret. apply runs_bind. eapply runs_lift; [reflexivity|]. unfold emit.
  eexists _, _. split; [reflexivity|]. fold x.
  set (m3 := Pym (p_syms m2 ++ [Sym (KNary NAdd) [obj; t] [] true]) (p_obj m2) (p_cons m2)).
  assert (K3 : keeps B m2 m3) by apply keeps_app.
  assert (O3 : open_ B m3) by (intros z Hz; unfold m3 in Hz; cbn in Hz; rewrite app_length in Hz; cbn in Hz; unfold B, x; lia).
  assert (Ex : nth_error (p_syms m3) x = Some (Sym (KNary NAdd) [obj; t] [] true)).
  { unfold m3, x. cbn [p_syms]. rewrite nth_error_app2, Nat.sub_diag by lia. reflexivity. }
  assert (Fb3 : forall i, i < n -> fact B m3 dv (3 + i) (KBitOf 2 (Z.of_nat n) n i) [Z.of_nat n] true (bits n (nth i bins []))).
  { intros i Hi. apply (fact_keeps K3). eapply fact_ban; [exact HB|]. apply (fact_steps S2), (fact_steps S1). apply Fb. lia. }
  apply (fact_ban (B := nobody)) with (B' := B) in F1; [|exact HB]. apply (fact_keeps K3) in F1.
  apply (yp_ban (B := nobody)) with (B' := B) in Y0; [|exact HB]. apply (yp_keeps K3) in Y0.
  apply (yp_ban (B := nobody)) with (B' := B) in Yt; [|exact HB]. apply (yp_keeps K3) in Yt.
  (* the others are added *)
  apply runs_pfor with (I := fun done y m' => y = x /\ steps B m3 m' /\
    exists ps, nth_error (p_syms m') x = Some (Sym (KNary NAdd) ps [] true) /\
      Forall2 (yp B m' dv) ps (map (fun v => [v]) (0%Qc :: map (fun b => b2q (nonempty b)) (firstn (S (length done)) bins)))).
  - split; [reflexivity|]. split; [now apply steps_refl|]. exists [obj; t]. split; [exact Ex|].
    destruct bins as [|b0 bs] eqn:Ebs; [cbn in Hb; lia|]. cbn [length firstn map]. constructor; [exact Y0|]. constructor; [exact Yt|constructor].
  - intros done y todo acc m4 E (-> & S4 & ps & Ex4 & HF). apply seq_mid in E as [-> Hi].
    assert (Hi' : S (length done) < n) by lia. pose proof (Fb3 _ Hi') as F. apply (fact_steps S4) in F. pose proof (fact_steps S4 F1) as F1'.
    destruct (bin_fine Hi') as [Hnd' Hlt'].
    apply runs_bind. eapply runs_mono; [|apply runs_appends; [apply appends_red|]].
    2:{ eapply runs_sum with (Q := fun s' m5 => steps B m4 m5 /\ fact B m5 dv s' (KRed RAdd) [] true [_]); [exact (steps_open S4)|exact F|]. intros s' m5 S5 Fs'.
        split; [exact S5|exact Fs']. }
    cbv beta. intros s' m5 (A5 & S5 & Fs'). advance S5.
    apply runs_bind. eapply runs_mono; [|apply runs_appends; [apply appends_binop|]].
    2:{ eapply runs_scalars with (Q := fun s' m6 => steps B m5 m6 /\ fact B m6 dv s' (KBin BLe) [] true [_]);
          [exact O0|exact F1'|exact Fs'|discriminate|discriminate|]. intros t' m6 S6 Ft'. split; [exact S6|exact Ft']. }
    cbv beta. intros t' m6 (A6 & S6 & Ft'). advance S6.
    rewrite le_holds, (bits_used Hnd' Hlt') in Ft'. fold (nonempty (nth (S (length done)) bins [])) in Ft'.
    assert (Ex6 : nth_error (p_syms m6) x = Some (Sym (KNary NAdd) ps [] true)).
    { eapply appended_nth; [exact A6|]. eapply appended_nth; [exact A5|exact Ex4]. }
    eapply runs_iadd_same; [exact (steps_open S6)|reflexivity|exact Ex6|exact Ft'|reflexivity|]. intros m7 S7 _ Ex7. advance S7.
    split; [reflexivity|]. split; [exact (steps_trans (steps_trans (steps_trans S4 S5) S6) S7)|]. exists (ps ++ [t']). split; [exact Ex7|].
    rewrite app_length. cbn [length]. replace (S (length done + 1)) with (S (S (length done))) by lia. rewrite (@firstn_snoc _ bins (S (length done)) []) by lia.
    rewrite map_app. cbn [map]. rewrite map_app. rewrite app_comm_cons. apply Forall2_app.
    + eapply Forall2_imp; [|exact HF]. intros u v H. apply (yp_keeps (steps_keeps S7)), (yp_keeps (steps_keeps S6)), (yp_keeps (steps_keeps S5)). exact H.
    + constructor; [|constructor]. now destruct Ft' as [_ [_ Y]].
  - intros y m' (-> & S & ps & Ex' & HF). rewrite seq_length, <- En, <- Hb, firstn_all2 in HF by lia.
    apply HQ with ps; auto.
    + assert (K : keeps nobody m m2) by exact (keeps_trans (steps_keeps S1) (steps_keeps S2)).
      assert (K' : keeps B m2 m') by exact (keeps_trans K3 (steps_keeps S)).
      split; intros y s' Hy.
      * intros _. apply (kp_same K'); [apply (kp_same K); [exact Hy|intros []]|]. apply HB. apply nth_error_Some. rewrite (kp_same K _ Hy); [discriminate|intros []].
      * destruct (kp_shape K _ Hy) as (s2 & H2 & E2). destruct (kp_shape K' _ H2) as (s3 & H3 & E3'). exists s3. split; [exact H3|congruence].
    + destruct S as (_ & _ & E & _). rewrite E. unfold m3. cbn [p_cons]. destruct S2 as (_ & _ & -> & _). now destruct S1 as (_ & _ & -> & _).
    + apply y_op with (Sym (KNary NAdd) ps [] true) (map (fun v => [v]) (0%Qc :: map (fun b => b2q (nonempty b)) bins)); [exact Ex'|reflexivity| |].
      * eapply Forall2_imp; [|exact HF]. intros u v. apply yp_yields.
      * cbn [s_cls s_pred meaning nop_func]. unfold shapes_of. rewrite map_length.
        assert (L : length ps = length (0%Qc :: map (fun b => b2q (nonempty b)) bins)).
        { clear - HF. revert HF. generalize (0%Qc :: map (fun b => b2q (nonempty b)) bins) as l. intros l H. rewrite <- (map_length (fun v : num => [v]) l).
          induction H; cbn; congruence. }
        rewrite L, nary_sum by discriminate. cbn [qsum_of]. now rewrite Qcplus_0_l, <- used_sum.
Qed.

Lemma bin_packing_runs :
  runs (bin_packing weights capacity) no_model (fun r m => r = (2, seq 3 n) /\ (forall i, i < n -> decision m (3 + i) (KBitOf 2 (Z.of_nat n) n i) [Z.of_nat n]) /\ objective m dv (used bins) /\
    feasible_iff m dv (Forall (fun b => total weights b <= capacity)%Qc bins)).
Proof.
  unfold bin_packing. apply runs_bind. apply runs_require_vector; [exact W0|]. cbv zeta. unfold zlen. fold n. rewrite Nat2Z.id.
  apply runs_bind. unfold unless at 1. destruct (Z.eqb_spec (Z.of_nat n) 0); [lia|]. apply runs_ret.
  apply runs_bind. unfold unless at 1.
  replace (qleb capacity 0%Qc) with false by (destruct (qleb_spec capacity 0%Qc) as [L|]; [exfalso; exact (Qclt_not_le _ _ Hc L)|reflexivity]). apply runs_ret.
  apply runs_bind. unfold unless at 1. replace (existsb _ weights) with false.
  2:{ symmetry. apply not_true_is_false. intros E. apply existsb_exists in E as (w & H1 & H2). rewrite Forall_forall in Hw. specialize (Hw w H1).
      destruct (qltb_spec capacity w) as [L|]; [|discriminate]. exact (Qclt_not_le _ _ L Hw). }
  apply runs_ret.
  apply runs_bind. eapply runs_constant with (dv := dv) (B := nobody); [apply nobody_open|]. intros w m1 _ L1 S1 F1. advance S1.
  apply runs_bind. eapply runs_constant with (dv := dv); [exact O|]. intros c m2 _ L2 S2 F2. advance S2.
  unfold disjoint_bit_sets. apply runs_bind. apply runs_bind. eapply runs_emit_plain; [exact O|]. intros main m3 -> L3 S3. advance S3.
  apply runs_bind. eapply runs_parts with (dv := dv); [exact O|reflexivity|]. intros m4 L4 S4 F4. advance S4. apply runs_ret.
  rewrite L2, L1 in *. cbn [no_model p_syms length] in *. rewrite L3 in *.
  assert (Fb : forall i, i < n -> fact nobody m4 dv (3 + i) (KBitOf 2 (Z.of_nat n) n i) [Z.of_nat n] true (bits n (nth i bins []))).
  { intros i Hi. specialize (F4 i Hi). rewrite Hdv in F4 by exact Hi. exact F4. }
  apply runs_bind. eapply bp_constraints; [exact O|exact F1|exact F2|exact Fb|]. intros m5 ks G5 Hk. grown G5.
  apply runs_bind. eapply runs_constant with (dv := dv); [exact O|]. intros one m6 _ _ S6 F6. advance S6.
  apply runs_bind. eapply runs_constant with (dv := dv); [exact O|]. intros obj m7 _ _ S7 F7. advance S7.
  apply runs_bind. eapply bp_objective; [exact O|exact F6|exact F7| |].
  { intros i Hi. apply (fact_steps S7), (fact_steps S6), (fact_grows G5). now apply Fb. }
  intros x m8 ps K8 C8 E8 Y8.
  apply runs_bind. unfold minimize. apply runs_bind. eapply runs_look; [exact E8|]. cbn [s_shape]. change (shape_to_size [] =? 1)%Z with true. cbv iota.
  eexists _, _. split; [reflexivity|]. apply runs_ret. split; [reflexivity|]. split.
  { intros i Hi. pose proof (Fb i Hi) as FF. apply (fact_grows G5), (fact_steps S6), (fact_steps S7) in FF.
    assert (FF' : fact (fun y => length (p_syms m7) <= y) m7 dv (3 + i) (KBitOf 2 (Z.of_nat n) n i) [Z.of_nat n] true (bits n (nth i bins []))).
    { eapply fact_ban; [|exact FF]. cbv beta. intros; lia. }
    apply (fact_keeps K8) in FF'. destruct FF' as [[q E1] _]. do 2 eexists. exact E1. }
  split.
  - exists x. split; [reflexivity|]. revert Y8. apply yields_same. reflexivity.
  - assert (C : p_cons m8 = ks).
    { rewrite C8. destruct S7 as (_ & _ & -> & _). destruct S6 as (_ & _ & -> & _). destruct G5 as (_ & _ & -> & _).
      destruct S4 as (_ & _ & -> & _). destruct S3 as (_ & _ & -> & _). destruct S2 as (_ & _ & -> & _). destruct S1 as (_ & _ & -> & _). reflexivity. }
    rewrite C. eapply holds_feasible with (B := fun y => length (p_syms m7) <= y) (bs := map (fun b => qleb (total weights b) capacity) bins).
    + eapply Forall2_imp; [|exact Hk]. intros y b H. apply (holds_keeps K8). eapply holds_ban with (B := nobody); [cbv beta; intros; lia|].
      apply (holds_keeps (steps_keeps S7)), (holds_keeps (steps_keeps S6)). exact H.
    + rewrite Forall_map. split; intros H; (eapply Forall_impl; [|exact H]); cbn beta; intros b; apply qleb_true.
Qed.
End BinPacking.
