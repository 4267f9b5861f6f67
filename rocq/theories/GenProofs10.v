(** Vehicle routing with time windows: the whole generator. *)
From Coq Require Import Permutation.
From Verif Require Import Base Num SliceModel ShapeModel ShapeSpec SliceSpec StateDataModel NodeSpec BinaryModel BasicModel BasicSpec ViewModel ElemModel NaryModel
  ReduceModel BoundsModel PermModel AdvModel NarySpec ReduceSpec BinarySpec ElemSpec PermSpec ViewSpec AdvSpec ProposeSpec PyModel GenModel PySpec GenSpec PyProofs PyValues PyRules
  GenProofs GenProofs2 GenProofs3 GenProofs4 GenProofs5 GenProofs6 GenProofs8 GenProofs9.
Set Implicit Arguments.

(** The node of the first route: there is one array less when going out and coming back take the same time. *)
Definition first_route (T : list (list num)) : nat := if list_qeqb (x_from T) (x_to T) then 10 else 11.
Lemma list_qeqb_eq a b : list_qeqb a b = true -> a = b.
Proof.
  unfold list_qeqb. intros H. apply andb_true_iff in H as [H1 H2]. apply Nat.eqb_eq in H1. revert b H1 H2. induction a as [|x a IH]; intros [|y b]; cbn; try discriminate; auto.
  intros H1 H2. apply andb_true_iff in H2 as [H2 H3]. destruct (qeqb_spec x y); [|discriminate]. f_equal; auto.
Qed.
Ltac trans := repeat first [now apply steps_refl, nobody_open | assumption | eapply steps_trans; [eassumption|]].
(** Whatever comes of the rest comes of the whole. *)
Lemma lands_bind {A C} (R : res (C * pym) -> Prop) (g : py A) (f : A -> py C) m : runs g m (fun a m' => R (f a m')) -> R (bind g f m).
Proof. intros (a & m' & E & H). unfold bind. now rewrite E. Qed.
Lemma lands_then {A C} (R : res (C * pym) -> Prop) (g : py A) (f : A -> py C) m (P : A -> pym -> Prop) : runs g m P -> (forall a m', P a m' -> R (f a m')) -> R (bind g f m).
Proof. intros H HQ. apply lands_bind. eapply runs_mono; [|exact H]. exact HQ. Qed.
Ltac bnd := first [apply runs_bind | apply lands_bind].
Section Collected.
Variable dv : nat -> list num.
Notation kn := (kn dv). Notation idx := (idx dv). Notation rt := (rt dv).
(** Going from [m] to [m'], constraints with these values are added. *)
Definition acc (m : pym) (bs : list bool) (m' : pym) : Prop := exists ks, grows nobody ks m m' /\ Forall2 (holds nobody m' dv) ks bs.
Lemma acc_keeps m bs m' : acc m bs m' -> keeps nobody m m'.
Proof. intros (ks & G & _). exact (proj1 G). Qed.
Lemma acc_trans m bs m' bs' m'' : acc m bs m' -> acc m' bs' m'' -> acc m (bs ++ bs') m''.
Proof.
  intros (ks & G & H) (ks' & G' & H'). exists (ks ++ ks'). split; [exact (grows_trans G G')|]. apply Forall2_app; [|exact H'].
  eapply Forall2_imp; [|exact H]. intros ? ?. apply holds_keeps. exact (proj1 G').
Qed.
Lemma acc_steps m m' : steps nobody m m' -> acc m [] m'.
Proof. intros H. exists []. split; [now apply steps_grows|constructor]. Qed.
Definition bits_ (m : pym) : list nat -> list bool -> Prop := Forall2 (fun w b => kn m w (b2q b)).
Lemma bits_keeps m m' ws bs : keeps nobody m m' -> bits_ m ws bs -> bits_ m' ws bs.
Proof. intros K. apply Forall2_imp. intros ? ?. now apply kn_keeps. Qed.
Lemma kns_keeps m m' ws vs : keeps nobody m m' -> Forall2 (kn m) ws vs -> Forall2 (kn m') ws vs.
Proof. intros K. apply Forall2_imp. intros ? ?. now apply kn_keeps. Qed.
Lemma go_constraints ws bs m : bits_ m ws bs -> runs (pfor ws (fun _ c => add_constraint c) tt) m (fun _ m' => acc m bs m').
Proof.
  intros H. eapply runs_mono; [|eapply constrain_all; exact H]. cbv beta. intros _ m' G. exists ws. split; [exact G|]. apply (bits_keeps (proj1 G)) in H.
  eapply Forall2_imp; [|exact H]. cbv beta. intros ? ?. apply kn_holds.
Qed.
Lemma go_collect {A V} (l : list A) (g : list nat -> A -> py (list nat)) (R : pym -> nat -> V -> Prop) (f : A -> list V) (h : A -> list bool) m :
  (forall m1 m2 x v, keeps nobody m1 m2 -> R m1 x v -> R m2 x v) ->
  (forall a cs m1, In a l -> keeps nobody m m1 -> runs (g cs a) m1 (fun out m2 => acc m1 (h a) m2 /\ exists ys, out = cs ++ ys /\ Forall2 (R m2) ys (f a))) ->
  runs (pfor l g []) m (fun out m2 => acc m (concat (map h l)) m2 /\ Forall2 (R m2) out (concat (map f l))).
Proof.
  intros HR Hg. eapply runs_mono; [|eapply runs_collect with (dv := dv) (h := h); [exact HR|]].
  - cbv beta. intros out m2 (ks & G & H1 & H2). split; [exists ks; auto|exact H1].
  - intros a cs m1 Ha K. eapply runs_mono; [|apply (Hg a cs m1 Ha K)]. cbv beta. intros out m2 [(ks & G & H1) (ys & E & H2)]. exists ks, ys. auto.
Qed.
Lemma compare_all y c xs vs : forall m cs bs, Forall2 (kn m) xs vs -> kn m y c -> bits_ m cs bs ->
  runs (pfor xs (fun cs x => do a <- binop BLe x y ; ret (cs ++ [a])) cs) m (fun out m' => steps nobody m m' /\ bits_ m' out (bs ++ map (fun v => qleb v c) vs)).
Proof.
  revert vs. induction xs as [|x xs IH]; intros vs m cs bs H Hy Hb; inversion H as [|? v ? vs' H1 H2]; subst; cbn [pfor].
  - apply runs_ret. split; [apply steps_refl, nobody_open|]. cbn [map]. now rewrite app_nil_r.
  - apply runs_bind. eapply runs_then; [apply go_bin; [exact H1|exact Hy|discriminate|discriminate]|]. cbv beta. intros a m1 [S1 F1]. apply runs_ret.
    pose proof (steps_keeps S1) as K. eapply runs_mono; [|apply IH with (bs := bs ++ [qleb v c])].
    + cbv beta. intros out m2 [S2 B2]. split; [exact (steps_trans S1 S2)|]. cbn [map]. rewrite <- app_assoc in B2. exact B2.
    + exact (kns_keeps K H2).
    + exact (kn_keeps K Hy).
    + apply Forall2_app; [exact (bits_keeps K Hb)|]. constructor; [exact F1|constructor].
Qed.
Lemma go_size x r m : rt m x r -> runs (size x) m (fun z m' => steps nobody m m' /\ exists y, z = inr y /\ idx m' y (length r)).
Proof.
  intros (h1 & h2 & h3 & i & F). pose proof F as [[ps Hx] [_ Y]]. unfold size. apply runs_bind. eapply runs_look; [exact Hx|]. cbn [s_shape]. change (dynamic [(-1)%Z]) with true. cbv iota.
  apply runs_bind. eapply runs_emit with (B := nobody) (dv := dv) (ins := [numbers r]) (v := [zq (Z.of_nat (length r))]); [apply nobody_open|reflexivity|constructor; [exact Y|constructor]| |].
  - cbn [meaning]. unfold size_fun. cbn. now rewrite numbers_length.
  - intros y m' S1 F1. apply runs_ret. split; [exact S1|]. exists y. split; [reflexivity|]. do 2 eexists. exact F1.
Qed.
Lemma yps_of m cs vs : Forall2 (kn m) cs vs -> Forall2 (yp nobody m dv) cs (map (fun v => [v]) vs) /\ map (shape_at m) cs = map (fun _ => []) cs /\ length cs = length vs.
Proof.
  induction 1 as [|x v cs vs (c & ct & F) H (IH1 & IH2 & IH3)]; [repeat split; constructor|]. cbn [map length]. split; [|split].
  - constructor; [now destruct F as [_ [_ Y]]|exact IH1].
  - rewrite (fact_shape F), IH2. reflexivity.
  - now rewrite IH3.
Qed.
Lemma go_nary cs vs m : Forall2 (kn m) cs vs -> 3 <= length vs -> runs (several BPlus NAdd cs) m (fun t m' => steps nobody m m' /\ kn m' t (qsum_of vs)).
Proof.
  intros H L. destruct (yps_of H) as (HY & HS & HL).
  assert (Esev : several BPlus NAdd cs = nary NAdd cs) by (destruct cs as [|? [|? [|? ?]]]; cbn in HL; try lia; reflexivity). rewrite Esev.
  eapply runs_nary with (shs := map (fun _ => []) cs) (sh := []) (w := [qsum_of vs]); [apply nobody_open|exact HY|exact HS| | |].
  { destruct cs as [|y cs]; [cbn in HL; lia|]. clear. unfold nary_new. cbn [map].
    replace (existsb _ _) with false. 2:{ cbn. induction cs; cbn; auto. } replace (forallb _ _) with true; [reflexivity|]. cbn. induction cs; cbn; auto. }
  { cbn [nop_func]. rewrite map_length, HL. apply nary_sum. destruct vs; [cbn in L; lia|discriminate]. }
  intros t m' S1 F. split; [exact S1|]. do 2 eexists. exact F.
Qed.
End Collected.
Lemma getitem_out dv x w i m : vec dv m x w -> length w <= i -> getitem x [PInt (Z.of_nat i)] m = Throw.
Proof.
  intros [[ps Hx] _] Hi. unfold getitem, bind, look. rewrite Hx. cbn [s_cls s_pred]. unfold array_getitem, bind, look. rewrite Hx. cbn [s_shape length Nat.sub repeat app forallb is_sym negb andb].
  unfold basic, bind, look. rewrite Hx. cbn [rmap to_sidx lift rbind s_shape s_contig]. unfold lift. cbn [rbind]. unfold basic_new, BasicModel.parse. cbn [length Nat.ltb Nat.leb negb combine shape_to_strides].
  destruct (shape_to_strides [Z.of_nat (length w)]) as [|st l] eqn:E; [unfold shape_to_strides in E; cbn in E; discriminate|]. cbn [combine parse_loop].
  destruct (_ <? 0)%Z; [reflexivity|]. cbv zeta. destruct (Z.ltb_spec (Z.of_nat i) 0); [lia|]. destruct (Z.leb_spec (Z.of_nat (length w)) (Z.of_nat i)); [|lia]. now rewrite orb_true_r.
Qed.
Lemma pfor_app {A C} (f : C -> A -> py C) l1 l2 : forall c m, pfor (l1 ++ l2) f c m = bind (pfor l1 f c) (pfor l2 f) m.
Proof. induction l1 as [|a l1 IH]; intros c m; [reflexivity|]. cbn [app pfor]. unfold bind at 1 2 3. destruct (f c a m) as [[c' m']| |]; [apply IH|reflexivity..]. Qed.
Lemma bind_throw {A C} (g : py A) (f : A -> py C) m : g m = Throw -> bind g f m = Throw.
Proof. unfold bind. now intros ->. Qed.
Lemma map_combine_fst {A C E} (g : A -> E) (l : list A) (l' : list C) : length l = length l' -> map (fun p => g (fst p)) (combine l l') = map g l.
Proof. revert l'. induction l as [|a l IH]; intros [|c l']; cbn; try discriminate; auto. intros [= H]. f_equal. now apply IH. Qed.
Ltac fwda A :=
  match type of A with acc _ ?m _ ?m' =>
    let K := fresh "K" in pose proof (acc_keeps A) as K;
    repeat match goal with
    | H : fact nobody m _ _ _ _ _ _ |- _ => apply (fact_keeps K) in H
    | H : kn _ m _ _ |- _ => apply (kn_keeps K) in H
    | H : vec _ m _ _ |- _ => apply (vec_keeps K) in H
    | H : bits_ _ m _ _ |- _ => apply (bits_keeps K) in H
    | H : Forall2 (kn _ m) _ _ |- _ => apply (kns_keeps K) in H
    | H : keeps nobody _ m |- _ => apply (fun x => keeps_trans x K) in H
    end
  end.

Section Whole.
Variables (n : nat) (demand : list num) (capacity : num) (T : list (list num)) (open close service : list num) (routes : list (list nat)) (dv : nat -> list num).
Let k := length routes.
Let q := 3 * (n / k).
Let b := first_route T.
Hypothesis Hn1 : 1 <= n.
Hypothesis Hn : (Z.of_nat (S n) < 2147483648)%Z.
Hypothesis HT : matrix (S n) (S n) T.
Hypothesis HT0 : Forall nonnegative T.
Hypothesis Ho : length open = S n.
Hypothesis Hc : length close = S n.
Hypothesis Hs : length service = S n.
Hypothesis Ho0 : nonnegative open.
Hypothesis Hc0 : nonnegative close.
Hypothesis Hs0 : nonnegative service.
Hypothesis Hdl : length demand = n.
Hypothesis Hpos : Forall (fun x => 0 < x)%Qc demand.
Hypothesis Hcap : (0 < capacity)%Qc.
Hypothesis Htot : (qsum_of demand <= zq (Z.of_nat k) * capacity)%Qc.
Hypothesis Hk : 1 <= k.
Hypothesis Hr : Forall (fun r => length r <= n /\ Forall (fun i => i < n) r) routes.
Hypothesis Hdv : forall i, i < k -> dv (b + i) = numbers (nth i routes []).
Definition rof (x : nat) : list nat := nth (x - b) routes [].
(** What is known when the vehicles' loop starts. *)
Definition ready (m : pym) (t_from t_to t_cust t_open t_close t_service one helper dclose : nat) (nc : list nat) : Prop :=
  ctx dv n T open close service t_from t_to t_cust t_open t_close t_service one helper m /\ kn dv m dclose (hd 0%Qc close) /\
  (forall i, i < k -> fact nobody m dv (b + i) (KListOf (b - 1) (Z.of_nat n) k i) [-1]%Z true (numbers (nth i routes []))) /\
  Forall2 (kn dv m) nc (map (fun x => zq (Z.of_nat (length (rof x)))) (seq b k)) /\
  acc dv no_model (map (fun r => qleb (total demand r) capacity) routes ++ map (fun r => qleb (zq (Z.of_nat (length r))) (zq (Z.of_nat q))) routes) m.
Lemma rof_map C (h : list nat -> C) : map (fun x => h (rof x)) (seq b k) = map h routes.
Proof. apply (map_part h routes [] b). Qed.
Lemma rof_rt m m' x : (forall i, i < k -> fact nobody m dv (b + i) (KListOf (b - 1) (Z.of_nat n) k i) [-1]%Z true (numbers (nth i routes []))) -> keeps nobody m m' -> In x (seq b k) -> rt dv m' x (rof x).
Proof. intros FR K Hx. apply in_seq in Hx. exists (b - 1), (Z.of_nat n), k, (x - b). apply (fact_keeps K). specialize (FR (x - b) ltac:(lia)). replace (b + (x - b)) with x in FR by lia. exact FR. Qed.
Lemma rof_fine x : In x (seq b k) -> length (rof x) <= n /\ Forall (fun i => i < n) (rof x).
Proof. intros Hx. apply in_seq in Hx. rewrite Forall_forall in Hr. apply Hr. apply nth_In. lia. Qed.
Lemma tw_front (R : res (nat * list nat * pym) -> Prop) :
  (forall m t_from t_to t_cust t_open t_close t_service one helper dclose nc, ready m t_from t_to t_cust t_open t_close t_service one helper dclose nc ->
     R (tw_rest t_from t_to t_cust t_open t_close t_service one helper (Z.of_nat q) dclose (b - 1) (seq b k) nc m)) ->
  R (cvrp_time_windows (0%Qc :: demand) k capacity T open close service no_model).
Proof.
  intros HR.
  unfold cvrp_time_windows.
  bnd. unfold unless at 1. destruct (Nat.eqb_spec k 0); [lia|]. apply runs_ret.
  bnd. unfold unless at 1.
  replace (qleb capacity 0%Qc) with false by (destruct (qleb_spec capacity 0%Qc) as [L|]; [exfalso; exact (Qclt_not_le _ _ Hcap L)|reflexivity]). apply runs_ret.
  bnd. apply runs_require_vector.
  { constructor; [apply Qcle_refl|]. eapply Forall_impl; [|exact Hpos]. intros x Hx. now apply Qclt_le_weak. }
  bnd. unfold unless at 1. replace (qltb _ _) with false.
  2:{ symmetry. cbn [fold_right]. replace (fold_right Qcplus 0%Qc demand) with (qsum_of demand) by (clear; induction demand; cbn; congruence).
      rewrite Qcplus_0_l. destruct (qltb_spec (zq (Z.of_nat k) * capacity) (qsum_of demand)) as [L|]; [exfalso; exact (Qclt_not_le _ _ L Htot)|reflexivity]. }
  apply runs_ret.
  bnd. eapply runs_require_square; [|exact HT|exact HT0|]; [lia|].
  bnd. apply runs_require_vector; [exact Ho0|]. bnd. apply runs_require_vector; [exact Hc0|]. bnd. apply runs_require_vector; [exact Hs0|].
  bnd. unfold unless at 1. destruct (Z.ltb_spec (Z.of_nat (S n)) 2); [lia|]. apply runs_ret.
  bnd. unfold unless at 1, zlen. cbn [length]. rewrite Hdl, Ho, Hc, Hs, !Z.eqb_refl. apply runs_ret.
  bnd. unfold unless at 1. cbn [hd]. destruct (qeqb_spec 0%Qc 0%Qc); [|congruence]. apply runs_ret.
  bnd. unfold unless at 1. cbn [tl]. replace (existsb _ demand) with false.
  2:{ symmetry. apply not_true_is_false. intros E. apply existsb_exists in E as (w & H1 & H2). rewrite Forall_forall in Hpos. specialize (Hpos w H1).
      destruct (qeqb_spec w 0%Qc) as [->|]; [exact (Qclt_not_le _ _ Hpos (Qcle_refl _))|discriminate]. }
  apply runs_ret. cbv zeta. rewrite Nat2Z.id, Hdl.
  change (map (hd 0%Qc) (tl T) ++ [0%Qc]) with (x_to T). change (tl (hd [] T) ++ [0%Qc]) with (x_from T).
  change (map (fun r => tl r ++ [0%Qc]) (tl T) ++ [repeat 0%Qc (S n)]) with (x_cust n T).
  change (tl open ++ [0%Qc]) with (x_open open). change (tl service ++ [0%Qc]) with (x_service service). change (tl close ++ [zq 1000000]) with (x_close close).
  change (map (fun i => zq (Z.of_nat i)) (seq 0 (S n))) with (numbers (seq 0 (S n))).
  replace (3 * Z.quot (Z.of_nat n) (Z.of_nat k))%Z with (Z.of_nat q).
  2:{ unfold q. rewrite Nat2Z.inj_mul, Nat2Z.inj_div by lia. rewrite Z.quot_div_nonneg by lia. reflexivity. }
  assert (LF : length (x_from T) = S n) by (eapply len_from; eassumption).
  assert (LT : length (x_to T) = S n) by (eapply len_to; eassumption).
  assert (LO : length (x_open open) = S n) by (eapply len_open; eassumption).
  assert (LC : length (x_close close) = S n) by (eapply len_close; eassumption).
  assert (LS : length (x_service service) = S n) by (eapply len_service; eassumption).
  assert (LH : length (numbers (seq 0 (S n))) = S n) by (now rewrite numbers_length, seq_length).
  eapply lands_then with (P := fun p m' => steps nobody no_model m' /\ S (S (length (p_syms m'))) + 7 = b /\ vec dv m' (fst p) (x_from T) /\ vec dv m' (snd p) (x_to T)).
  { unfold b, first_route, vec. rewrite LF, LT. destruct (list_qeqb (x_from T) (x_to T)) eqn:E.
    - apply list_qeqb_eq in E. rewrite <- E. bnd. eapply runs_constant with (dv := dv) (B := nobody); [apply nobody_open|]. intros x m _ L S1 F. apply runs_ret. cbn [fst snd].
      split; [exact S1|]. rewrite L. split; [reflexivity|]. split; exact F.
    - bnd. eapply runs_constant with (dv := dv) (B := nobody); [apply nobody_open|]. intros x m _ L S1 F.
      bnd. eapply runs_constant with (dv := dv) (B := nobody); [apply nobody_open|]. intros x' m' _ L' S2 F'. apply runs_ret. cbn [fst snd].
      split; [exact (steps_trans S1 S2)|]. rewrite L', L. split; [reflexivity|]. split; [exact (fact_steps S2 F)|exact F']. }
  intros [t_from t_to] m0 (S0 & L0 & V1 & V2). cbn [fst snd] in V1, V2.
  bnd. eapply runs_constant with (dv := dv) (B := nobody); [apply nobody_open|]. intros t_cust m1 _ L1 S1 F1. fwd S1.
  bnd. eapply runs_constant with (dv := dv) (B := nobody); [apply nobody_open|]. intros t_open m2 _ L2 S2 F2. fwd S2.
  bnd. eapply runs_constant with (dv := dv) (B := nobody); [apply nobody_open|]. intros t_close m3 _ L3 S3 F3. fwd S3.
  bnd. eapply runs_constant with (dv := dv) (B := nobody); [apply nobody_open|]. intros t_service m4 _ L4 S4 F4. fwd S4.
  bnd. eapply runs_constant with (dv := dv) (B := nobody); [apply nobody_open|]. intros dem m5 _ L5 S5 F5. fwd S5.
  bnd. eapply runs_constant with (dv := dv) (B := nobody); [apply nobody_open|]. intros cap m6 _ L6 S6 F6. fwd S6.
  bnd. eapply runs_constant with (dv := dv) (B := nobody); [apply nobody_open|]. intros dclose m7 _ L7 S7 F7. fwd S7.
  bnd. eapply runs_constant with (dv := dv) (B := nobody); [apply nobody_open|]. intros one m8 _ L8 S8 F8. fwd S8.
  assert (Lm : length (p_syms m8) = b - 1) by lia.
  assert (S08 : steps nobody no_model m8) by trans.
  clear S0 L0 L1 S1 L2 S2 L3 S3 L4 S4 L5 S5 L6 S6 L7 S7 L8 S8. clear m0 m1 m2 m3 m4 m5 m6 m7.
  bnd. unfold disjoint_lists. bnd. eapply runs_emit_plain with (B := nobody); [apply nobody_open|]. intros main m9 -> L9 S9. fwd S9.
  bnd. eapply runs_parts with (dv := dv) (B := nobody); [apply nobody_open|reflexivity|]. intros m10 L10 S10 FR. fwd S10. apply runs_ret.
  assert (Eb : length (p_syms m9) = b) by (assert (9 <= b) by (unfold b, first_route; destruct list_qeqb; lia); lia). rewrite Eb in *. rewrite Lm.
  assert (FR' : forall i, i < k -> fact nobody m10 dv (b + i) (KListOf (b - 1) (Z.of_nat n) k i) [-1]%Z true (numbers (nth i routes []))).
  { intros i Hi. rewrite <- Hdv by exact Hi. rewrite Lm in FR; exact (FR i Hi). }
  assert (HRT : forall m x, keeps nobody m10 m -> In x (seq b k) -> rt dv m x (rof x)) by (intros; now apply rof_rt with m10).
  pose proof rof_fine as HRR.
  assert (K10 : keeps nobody m10 m10) by apply keeps_refl.
  assert (A10 : acc dv no_model [] m10) by (apply acc_steps; trans).
  clear S08 S9 S10 L9 L10 Lm Eb.
  (* demands *)
  eapply lands_then; [apply go_collect with (R := fun m x b => kn dv m x (b2q b)) (f := fun x => [qleb (total demand (rof x)) capacity]) (h := fun _ => []) (dv := dv)|].
  { intros m1 m2 x v. apply kn_keeps. }
  { intros x cs m Hx K. destruct (HRT _ _ K Hx) as (h1 & h2 & h3 & i & FX). destruct (HRR _ Hx) as [HX1 HX2].
    pose proof (fact_keeps K F5) as F5'. rewrite <- Hdl in F5'. pose proof (fact_keeps K F6) as F6'.
    bnd. eapply runs_gather_item; [apply nobody_open|exact F5'|exact I|exact FX|cbn; lia|rewrite Hdl; exact HX2|]. intros a1 n1 T1 B1. fwd T1.
    bnd. eapply runs_sum; [apply nobody_open|exact B1|]. intros a2 n2 T2 B2. fwd T2.
    bnd. eapply runs_scalars; [apply nobody_open|exact B2|exact F6'|discriminate|discriminate|]. intros a3 n3 T3 B3. fwd T3. apply runs_ret.
    split; [apply acc_steps; trans|]. eexists. split; [reflexivity|]. constructor; [|constructor]. do 2 eexists. exact B3. }
  cbv beta. intros cc m11 [A11 V11]. fwda A11. fold (bits_ dv m11 cc (concat (map (fun x => [qleb (total demand (rof x)) capacity]) (seq b k)))) in V11.
  eapply lands_then; [eapply go_constraints; exact V11|]. cbv beta. intros _ m12 A12. fwda A12.
  bnd. eapply runs_constant with (dv := dv) (B := nobody); [apply nobody_open|]. intros helper m13 _ _ S13 F13. pose proof (acc_steps dv S13) as A13. fwda A13.
  (* sizes *)
  eapply lands_then; [apply go_collect with (R := kn dv) (f := fun x => [zq (Z.of_nat (length (rof x)))]) (h := fun _ => []) (dv := dv)|].
  { intros m1 m2 x v. apply kn_keeps. }
  { intros x cs m Hx K'. eapply runs_then; [apply go_size; apply HRT; [exact (keeps_trans K10 K')|exact Hx]|]. cbv beta. intros z m' (S' & y & -> & F). apply runs_ret.
    split; [apply acc_steps; exact S'|]. eexists. split; [reflexivity|]. constructor; [exact F|constructor]. }
  cbv beta. intros nc m14 [A14 V14]. fwda A14.
  bnd. eapply runs_constant with (dv := dv) (B := nobody); [apply nobody_open|]. intros maxc m15 _ _ S15 F15. pose proof (acc_steps dv S15) as A15. fwda A15.
  eapply lands_then; [eapply compare_all with (bs := []); [exact V14|do 2 eexists; exact F15|constructor]|]. cbv beta. intros mc m16 [S16 V16]. cbn [app] in V16. pose proof (acc_steps dv S16) as A16. fwda A16.
  eapply lands_then; [eapply go_constraints; exact V16|]. cbv beta. intros _ m17 A17. fwda A17.
  assert (HCX : ctx dv n T open close service t_from t_to t_cust t_open t_close t_service one helper m17).
  { unfold ctx, vec in *. rewrite LF, LT, LO, LC, LS, LH in *. refine (conj V1 (conj V2 (conj F1 (conj F2 (conj F3 (conj F4 (conj _ F13))))))). do 2 eexists. exact F8. }
  rewrite concat_single in V14.
  apply HR. split; [exact HCX|]. split; [do 2 eexists; exact F7|]. split; [intros i Hi; exact (fact_keeps K10 (FR' i Hi))|]. split; [exact V14|].
  pose proof (acc_trans A10 (acc_trans A11 (acc_trans A12 (acc_trans A13 (acc_trans A14 (acc_trans A15 (acc_trans A16 A17))))))) as A.
  rewrite !concat_nil, !concat_single in A. cbn [app] in A. rewrite !map_map in A.
  rewrite (rof_map (fun r => qleb (total demand r) capacity)), (rof_map (fun r => qleb (zq (Z.of_nat (length r))) (zq (Z.of_nat q)))) in A. exact A.
Qed.
(** No room for a customer in a route, or more room than the arrays have. *)
Lemma tw_refused : q = 0 \/ S n < q -> cvrp_time_windows (0%Qc :: demand) k capacity T open close service no_model = Throw.
Proof.
  intros Hq. apply (@tw_front (fun x => x = Throw)).
  intros m t_from t_to t_cust t_open t_close t_service one helper dclose nc (HCX & F7 & FR & V14 & A17).
  unfold tw_rest. apply bind_throw. assert (Hb : In b (seq b k)) by (apply in_seq; lia).
  assert (Es : seq b k = b :: seq (S b) (k - 1)) by (replace k with (S (k - 1)) at 1 by lia; reflexivity).
  rewrite Es in V14 |- *. cbn [map] in V14. inversion V14 as [|z v nc' vs Hz _ E1 E2]. subst nc. cbn [combine pfor]. apply bind_throw.
  destruct (rof_fine b Hb) as [HX1 HX2].
  assert (HR : rt dv m b (rof b)) by (apply rof_rt with m; [exact FR|apply keeps_refl|exact Hb]).
  unfold tw_vehicle. rewrite Nat2Z.id. destruct Hq as [Hq|Hq].
  - rewrite Hq. cbn [seq pfor]. destruct HCX as (H1 & H2 & H3 & H4 & H5 & H6 & H7 & H8).
    eapply (lands_then (fun x => x = Throw)) with (P := fun lw m' => lw = ([], []) /\ m' = m); [apply runs_ret; split; reflexivity|]. intros lw m' [-> ->].
    eapply (lands_then (fun x => x = Throw)); [apply go_bin; [exact H7|exact Hz|discriminate|discriminate]|]. cbv beta. intros y m1 [S1 Y1]. fwd S1.
    assert (Sr : small (rof b)) by (unfold small; lia).
    rewrite bind_assoc. eapply (lands_then (fun x => x = Throw)); [eapply go_pick; [exact HR|exact Sr|apply (pick_last Sr)]|]. cbv beta. intros y2 m2 [S2 Y2]. fwd S2.
    assert (Sm : small (numbers (seq 0 (S n)))) by (unfold small; rewrite numbers_length, seq_length; exact Hn).
    assert (Hne : numbers (seq 0 (S n)) <> []) by (cbn; discriminate).
    eapply (lands_then (fun x => x = Throw)); [eapply go_last; [exact H8|exact Sm|exact Hne]|]. cbv beta. intros y3 m3 [S3 Y3]. fwd S3. rewrite last_helper in Y3.
    rewrite counted_one in Y1.
    eapply (lands_then (fun x => x = Throw)); [eapply go_where; [exact Y1|exact Y2|exact Y3]|]. reflexivity.
  - apply bind_throw. replace q with (S n + S (q - S n - 1)) by lia. rewrite seq_app, pfor_app. cbn [plus].
    eapply (lands_then (fun x => x = Throw)).
    { eapply slots_run with (dv := dv) (r := rof b) (T := T) (open := open) (close := close) (service := service); try eassumption. lia. }
    cbv beta. intros lw m' (S' & _). pose proof (steps_keeps S') as K'. apply (ctx_keeps K') in HCX. destruct HCX as (_ & _ & _ & _ & _ & _ & _ & H8).
    cbn [seq pfor]. apply bind_throw. destruct lw as [ls ws]. unfold tw_slot. apply bind_throw. eapply getitem_out; [exact H8|]. rewrite numbers_length, seq_length. lia.
Qed.
Hypothesis Hq : 1 <= q <= S n.
Definition fine (r : list nat) : Prop := (total demand r <= capacity)%Qc /\ length r <= q /\ on_time T open close service (map S r) /\
  (length r < q -> (last (leaving T open service 0 0 (map S r)) 0 <= zq 1000000)%Qc).
Lemma tw_runs : runs (cvrp_time_windows (0%Qc :: demand) k capacity T open close service) no_model (fun r m => r = (b - 1, seq b k) /\
    (forall i, i < k -> decision m (b + i) (KListOf (b - 1) (Z.of_nat n) k i) [-1]%Z) /\ objective m dv (qsum_of (map (reversed_trip T) routes)) /\ feasible_iff m dv (Forall fine routes)).
Proof.
  match goal with |- runs _ _ ?QQ => pose (Q := QQ); apply (@tw_front (fun x => exists a m', x = Ok (a, m') /\ Q a m')) end.
  intros m t_from t_to t_cust t_open t_close t_service one helper dclose nc (HCX & F7 & FR & V14 & A17).
  change (runs (tw_rest t_from t_to t_cust t_open t_close t_service one helper (Z.of_nat q) dclose (b - 1) (seq b k) nc) m Q). subst Q. unfold tw_rest.
  assert (K10 : keeps nobody m m) by apply keeps_refl.
  assert (Lnc : length (seq b k) = length nc) by (destruct (yps_of V14) as (_ & _ & E); now rewrite map_length in E).
  (* vehicles *)
  eapply runs_then; [apply go_collect with (R := kn dv) (f := fun p => [back_time n T open service (rof (fst p)) q])
    (h := fun p => map (window_at n T open close service (rof (fst p))) (seq 0 q)) (dv := dv)|].
  { intros m1 m2 x v. apply kn_keeps. }
  { intros [x z] cs m' Hx K'. destruct (@in_zip _ _ _ _ _ _ _ _ _ V14 Hx) as [Hz Hxx]. destruct (rof_fine _ Hxx) as [HX1 HX2]. cbn [fst].
    eapply runs_mono; [|eapply vehicle_runs with (r := rof x) (dv := dv) (n := n) (T := T) (open := open) (close := close) (service := service); try eassumption]; [|apply (ctx_keeps K' HCX)|eapply rof_rt; [exact FR|exact (keeps_trans K10 K')|exact Hxx]|exact (kn_keeps K' Hz)|lia|lia].
    cbv beta. intros out m'' (ks & y & G & HF & -> & Fy). split; [exists ks; split; [exact G|exact HF]|]. eexists. split; [reflexivity|]. constructor; [exact Fy|constructor]. }
  cbv beta. intros back m18 [A18 V18]. fwda A18. apply (ctx_keeps (acc_keeps A18)) in HCX.
  eapply runs_then; [eapply compare_all with (bs := []); [exact V18|exact F7|constructor]|]. cbv beta. intros bc m19 [S19 V19]. cbn [app] in V19. pose proof (acc_steps dv S19) as A19. fwda A19.
  apply (ctx_keeps (acc_keeps A19)) in HCX.
  eapply runs_then; [eapply go_constraints; exact V19|]. cbv beta. intros _ m20 A20. fwda A20. apply (ctx_keeps (acc_keeps A20)) in HCX.
  (* costs *)
  eapply runs_then; [apply go_collect with (R := kn dv) (f := fun x => tw_costs n T (rof x)) (h := fun _ => []) (dv := dv)|].
  { intros m1 m2 x v. apply kn_keeps. }
  { intros x cs m' Hx K'. destruct (rof_fine _ Hx) as [HX1 HX2].
    eapply runs_mono; [|eapply cost_runs with (r := rof x) (dv := dv) (n := n) (T := T) (open := open) (close := close) (service := service); try eassumption]; [|apply (ctx_keeps K' HCX)|eapply rof_rt; [exact FR|exact (keeps_trans K10 K')|exact Hx]].
    cbv beta. intros out m'' (S' & ys & -> & Fy). split; [apply acc_steps; exact S'|]. eexists. split; [reflexivity|exact Fy]. }
  cbv beta. intros costs m21 [A21 V21]. fwda A21.
  eapply runs_then; [eapply go_nary; [exact V21|]|].
  { destruct k; [lia|]. cbn [seq map concat]. rewrite app_length. cbn [tw_costs length]. lia. }
  cbv beta. intros t m22 [S22 (ct & ctt & F22)]. pose proof (acc_steps dv S22) as A22. fwda A22.
  apply runs_bind. eapply runs_minimize; [exact F22|reflexivity|]. apply runs_ret. split; [reflexivity|].
  pose proof (acc_trans A17 (acc_trans A18 (acc_trans A19 (acc_trans A20 (acc_trans A21 A22))))) as (ks & GG & HH).
  split.
  { intros i Hi. pose proof (fact_keeps K10 (FR i Hi)) as [[ps E] _]. do 2 eexists. exact E. }
  split.
  + eapply fact_objective. replace (qsum_of (map (reversed_trip T) routes)) with (qsum_of (concat (map (fun x => tw_costs n T (rof x)) (seq b k)))); [exact F22|].
    rewrite (rof_map (tw_costs n T)). clear - dv Hn HT HT0 Ho Hc Hs Hr. induction routes as [|r rs IH]; [reflexivity|]. inversion Hr as [|? ? H1 H2]; subst.
    cbn [map concat qsum_of]. rewrite qsum_app, IH by exact H2. f_equal. destruct H1 as [HA HB]. eapply costs_reversed with (open := open) (close := close) (service := service); eassumption.
  + destruct GG as (_ & _ & C & _). rewrite C. cbn [no_model p_cons app]. eapply holds_feasible; [exact HH|].
    rewrite !concat_nil, !concat_single. cbn [app]. rewrite app_nil_r, !map_map, <- !app_assoc.
    rewrite (map_combine_fst (fun x => map (window_at n T open close service (rof x)) (seq 0 q))) by exact Lnc.
    rewrite (map_combine_fst (fun x => qleb (back_time n T open service (rof x) q) (hd 0%Qc close))) by exact Lnc.
    rewrite (rof_map (fun r => map (window_at n T open close service r) (seq 0 q))), (rof_map (fun r => qleb (back_time n T open service r q) (hd 0%Qc close))).
    rewrite !Forall_app, !Forall_map, Forall_concat, Forall_map, !Forall_forall.
    assert (HS : forall r, In r routes -> length r <= q -> (Forall (fun x => x = true) (map (window_at n T open close service r) (seq 0 q)) /\
       qleb (back_time n T open service r q) (hd 0%Qc close) = true <-> on_time T open close service (map S r) /\
       (length r < q -> (last (leaving T open service 0 0 (map S r)) 0 <= zq 1000000)%Qc))).
    { intros r Hin Hlen. rewrite Forall_forall in Hr. destruct (Hr _ Hin) as [_ H2]. rewrite <- (slots_ok HT HT0 Ho Hc Hs Ho0 Hc0 Hs0 H2) with (k := q) by (assumption || lia).
      unfold windows_ok. rewrite forallb_forall, Forall_map, Forall_forall. reflexivity. }
    unfold fine. split.
    * intros (H1 & H2 & H3 & H4) r Hin. assert (Hlen : length r <= q) by (specialize (H2 r Hin); apply qleb_true in H2; apply (proj1 (zq_le _ _)) in H2; lia).
      split; [apply qleb_true; now apply H1|]. split; [exact Hlen|]. apply HS; auto.
    * intros HF. repeat apply conj; intros r Hin; destruct (HF r Hin) as (H1 & H2 & H3).
      -- now apply qleb_true.
      -- apply qleb_true. apply zq_le. lia.
      -- apply (HS r Hin H2) in H3. apply H3.
      -- apply (HS r Hin H2) in H3. apply H3.
Qed.
End Whole.
