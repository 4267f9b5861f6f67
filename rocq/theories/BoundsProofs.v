From Verif Require Import Base SliceModel Num ArithModel ArithSpec ArithProofs NarySpec NaryModel ReduceModel ReduceSpec BoundsModel BoundsSpec.
Local Open Scope Qc_scope.

(** ** Lying between two of some numbers *)
Definition hull (l : list Qc) (x : Qc) : Prop := exists c1 c2, In c1 l /\ In c2 l /\ c1 <= x /\ x <= c2.
Lemma hull_in l x : In x l -> hull l x.
Proof. intros H. exists x, x. repeat split; auto; apply Qcle_refl. Qed.
Lemma hull_trans l m x : hull l x -> (forall y, In y l -> hull m y) -> hull m x.
Proof.
  intros (c1 & c2 & H1 & H2 & H3 & H4) H. destruct (H _ H1) as (d1 & _ & D1 & _ & D2 & _). destruct (H _ H2) as (_ & d2 & _ & D3 & _ & D4).
  exists d1, d2. repeat split; auto; eapply Qcle_trans; eassumption.
Qed.
Lemma hull_scale i l x : hull l x -> hull (map (Qcmult i) l) (i * x).
Proof.
  intros (c1 & c2 & H1 & H2 & H3 & H4). destruct (Qclt_le_dec i 0).
  - exists (i * c2), (i * c1). split; [now apply in_map|]. split; [now apply in_map|]. split; qnra.
  - exists (i * c1), (i * c2). split; [now apply in_map|]. split; [now apply in_map|]. split; qnra.
Qed.
Lemma hull_2 lo hi x : lo <= x -> x <= hi -> hull [lo; hi] x.
Proof. intros. exists lo, hi. cbn. auto. Qed.
Lemma hull_2_inv lo hi x : lo <= hi -> hull [lo; hi] x -> lo <= x /\ x <= hi.
Proof. intros L (c1 & c2 & [<-|[<-|[]]] & [<-|[<-|[]]] & H3 & H4); split; qlra. Qed.
Lemma qmax_le a b : a <= qmax a b /\ b <= qmax a b.
Proof. unfold qmax. qcase; split; qlra. Qed.
Lemma qmin_le a b : qmin a b <= a /\ qmin a b <= b.
Proof. unfold qmin. qcase; split; qlra. Qed.
Lemma hull_4 a b c d x : hull [a; b; c; d] x -> min4 a b c d <= x /\ x <= max4 a b c d.
Proof.
  intros (c1 & c2 & H1 & H2 & H3 & H4). unfold min4, max4.
  destruct (qmax_le a b), (qmax_le (qmax a b) c), (qmax_le (qmax (qmax a b) c) d), (qmin_le a b), (qmin_le (qmin a b) c), (qmin_le (qmin (qmin a b) c) d).
  split.
  - eapply Qcle_trans; [|exact H3]. destruct H1 as [<-|[<-|[<-|[<-|[]]]]]; qlra.
  - eapply Qcle_trans; [exact H4|]. destruct H2 as [<-|[<-|[<-|[<-|[]]]]]; qlra.
Qed.
Lemma hull_mul a b c d x y : hull [a; b] x -> hull [c; d] y -> hull [a * c; a * d; b * c; b * d] (x * y).
Proof.
  intros Hx Hy. apply hull_trans with (map (Qcmult x) [c; d]); [now apply hull_scale|].
  intros z Hz. cbn [map In] in Hz.
  assert (G : forall w, hull [a * w; b * w] (x * w)) by (intros w; pose proof (hull_scale w _ _ Hx) as G; cbn [map] in G; rewrite (Qcmult_comm a), (Qcmult_comm b), (Qcmult_comm x); exact G).
  destruct Hz as [<-|[<-|[]]].
  - eapply hull_trans; [apply G|]. intros v [<-|[<-|[]]]; apply hull_in; cbn; auto.
  - eapply hull_trans; [apply G|]. intros v [<-|[<-|[]]]; apply hull_in; cbn; auto.
Qed.
Lemma prods_ok a b x y : b_min a <= x -> x <= b_max a -> b_min b <= y -> y <= b_max b ->
  prods min4 a b <= x * y /\ x * y <= prods max4 a b.
Proof. intros. unfold prods. apply hull_4, hull_mul; now apply hull_2. Qed.

Lemma qinv_pos y : 0 < y -> 0 < / y.
Proof. intros H. apply qc_lt. rewrite this_inv. apply Qinv_lt_0_compat. exact H. Qed.
Lemma qneq y : 0 < y \/ y < 0 -> y <> 0.
Proof. intros [H|H] ->; qlra. Qed.
Lemma qinv_anti x y : 0 < x -> x <= y -> / y <= / x.
Proof.
  intros Hx Hy. pose proof (qinv_pos x Hx) as A. pose proof (qinv_pos y ltac:(qlra)) as B.
  assert (E1 : x * / x = 1) by (apply Qcmult_inv_r; apply qneq; auto). assert (E2 : y * / y = 1) by (apply Qcmult_inv_r; apply qneq; left; qlra).
  destruct (Qclt_le_dec (/ x) (/ y)) as [C|C]; auto. exfalso. assert (x * / x < y * / y) by qnra. qlra.
Qed.
Lemma qinv_opp y : y <> 0 -> / (- y) = - / y.
Proof. intros H. field. split; auto. intros E. apply H. assert (y = - - y) by ring. rewrite H0, E. ring. Qed.
Lemma quots_ok a b x y : (b_min b < 0 /\ b_max b < 0) \/ (0 < b_min b /\ 0 < b_max b) -> b_min a <= x -> x <= b_max a -> b_min b <= y -> y <= b_max b ->
  exists lo hi, quots min4 a b = Ok lo /\ quots max4 a b = Ok hi /\ lo <= x / y /\ x / y <= hi /\ y <> 0.
Proof.
  intros S Hx1 Hx2 Hy1 Hy2.
  assert (N1 : b_min b <> 0) by (apply qneq; tauto). assert (N2 : b_max b <> 0) by (apply qneq; tauto).
  assert (N3 : y <> 0) by (apply qneq; destruct S as [[? ?]|[? ?]]; [right|left]; qlra).
  unfold quots. destruct (qeqb_spec (b_min b) 0); [contradiction|]. destruct (qeqb_spec (b_max b) 0); [contradiction|]. cbn [orb].
  eexists. eexists. split; [reflexivity|]. split; [reflexivity|].
  assert (H : hull [/ b_min b; / b_max b] (/ y)).
  { exists (/ b_max b), (/ b_min b). cbn. repeat split; auto.
    - destruct S as [[S1 S2]|[S1 S2]]; [|apply qinv_anti; qlra].
      assert (/ (- y) <= / (- b_max b)) by (apply qinv_anti; qlra). rewrite !qinv_opp in H by auto. qlra.
    - destruct S as [[S1 S2]|[S1 S2]]; [|apply qinv_anti; qlra].
      assert (/ (- b_min b) <= / (- y)) by (apply qinv_anti; qlra). rewrite !qinv_opp in H by auto. qlra. }
  rewrite !qdiv_def. pose proof (hull_4 _ _ _ _ _ (hull_mul _ _ _ _ _ _ (hull_2 _ _ _ Hx1 Hx2) H)) as [A B]. auto.
Qed.

(** ** Integrality *)
Lemma is_int_b2q b : is_int (b2q b).
Proof. destruct b; [exists 1%Z; symmetry; apply zq_1|exists 0%Z; symmetry; apply zq_0]. Qed.
Lemma b2q_range b : 0 <= b2q b /\ b2q b <= 1.
Proof. destruct b; cbn [b2q]; split; qlra. Qed.
Lemma is_int_modulus x y : is_int x -> is_int y -> is_int (modulus x y).
Proof.
  intros [a ->] [b ->]. destruct (qeqb_spec (zq b) 0) as [E|E].
  - unfold modulus. rewrite E. rewrite qeqb_refl. exists 0%Z. symmetry. apply zq_0.
  - destruct (modulus_spec (zq a) (zq b) E) as [[q Eq] _]. exists (a - q * b)%Z. rewrite <- zq_minus, <- zq_mult. set (m := modulus (zq a) (zq b)) in *. clearbody m. rewrite Eq. ring.
Qed.

Lemma bin_ok dbg o a b x y r hi lo : bin_new o b = Ok tt -> within a x -> within b y -> bop_func o x y = Some r ->
  bin_max dbg o a b = Ok hi -> bin_min o a b = Ok lo -> declares_ok lo hi (bin_integral o a b) r.
Proof.
  intros Hn (Ha1 & Ha2 & Hai) (Hb1 & Hb2 & Hbi) Hr Hhi Hlo.
  assert (I : forall p q, p && q = true -> p = true /\ q = true) by (intros [|] [|]; auto).
  unfold declares_ok. destruct o; cbn [bop_func bin_max bin_min bin_integral bop_bool bin_new] in *;
    try (injection Hr as <-; injection Hhi as <-; injection Hlo as <-; destruct (b2q_range (qeqb x y)); auto using is_int_b2q; fail).
  - injection Hr as <-; injection Hhi as <-; injection Hlo as <-. repeat split; try qlra. intros H. apply I in H as [? ?]. apply is_int_plus; auto.
  - injection Hr as <-; injection Hhi as <-; injection Hlo as <-. repeat split; try qlra. intros H. apply I in H as [? ?]. apply is_int_minus; auto.
  - injection Hr as <-; injection Hhi as <-; injection Hlo as <-. destruct (prods_ok a b x y) as [P1 P2]; auto. repeat split; auto. intros H. apply I in H as [? ?]. apply is_int_mult; auto.
  - assert (S : (b_min b < 0 /\ b_max b < 0) \/ (0 < b_min b /\ 0 < b_max b)).
    { destruct (qltb_spec (b_min b) 0), (qltb_spec (b_max b) 0), (qltb_spec 0 (b_min b)), (qltb_spec 0 (b_max b)); cbn in Hn; try discriminate Hn; auto. }
    destruct (quots_ok a b x y S) as (lo' & hi' & E1 & E2 & E3 & E4 & E5); auto. rewrite E1 in Hlo. destruct (qeqb_spec y 0); [contradiction|]. injection Hr as <-.
    destruct (dbg && _); [discriminate Hhi|]. rewrite E2 in Hhi. injection Hhi as <-. injection Hlo as <-. repeat split; auto. intros H; discriminate H.
  - injection Hr as <-. assert (Hi : (b_int a && b_int b = true) -> is_int (modulus x y)) by (intros H; apply I in H as [? ?]; apply is_int_modulus; auto).
    injection Hhi as <-. injection Hlo as <-.
    assert (G : (0 < y -> 0 <= modulus x y /\ modulus x y < y) /\ (y < 0 -> y < modulus x y /\ modulus x y <= 0) /\ (y = 0 -> modulus x y = 0)).
    { destruct (qeqb_spec y 0) as [->|E]; [|destruct (modulus_spec x y E) as [_ [M1 M2]]; repeat split; try apply M1; try apply M2; auto; contradiction].
      assert (modulus x 0 = 0) by (unfold modulus; now rewrite qeqb_refl). rewrite H. repeat split; auto; qlra. }
    destruct G as (G1 & G2 & G3). destruct (Qclt_le_dec 0 y) as [P|P]; [destruct (G1 P)|destruct (Qclt_le_dec y 0) as [P'|P']; [destruct (G2 P')|assert (y = 0) by (apply Qcle_antisym; auto); specialize (G3 H)]];
      repeat split; auto; qcase; qlra.
  - injection Hr as <-; injection Hhi as <-; injection Hlo as <-. destruct (b2q_range (qleb x y)); auto using is_int_b2q.
  - injection Hr as <-; injection Hhi as <-; injection Hlo as <-. destruct (b2q_range (q2b x && q2b y)); auto using is_int_b2q.
  - injection Hr as <-; injection Hhi as <-; injection Hlo as <-. destruct (b2q_range (q2b x || q2b y)); auto using is_int_b2q.
  - injection Hr as <-; injection Hhi as <-; injection Hlo as <-. destruct (b2q_range (xorb (q2b x) (q2b y))); auto using is_int_b2q.
  - injection Hr as <-; injection Hhi as <-; injection Hlo as <-. repeat split; unfold qmax; repeat qcase; try qlra; intros H; apply I in H as [? ?]; auto.
  - injection Hr as <-; injection Hhi as <-; injection Hlo as <-. repeat split; unfold qmin; repeat qcase; try qlra; intros H; apply I in H as [? ?]; auto.
Qed.

Lemma un_ok root dbg o a x hi lo : (forall u v, 0 <= u -> u <= v -> root u <= root v) ->
  un_new o a = Ok tt -> within a x -> un_max root dbg o a = Ok hi -> un_min root dbg o a = Ok lo ->
  (o = USquare -> 0 <= b_min a /\ x * x <= DMAX) ->
  declares_ok lo hi (un_integral o a) (uop_func root o x).
Proof.
  intros Hroot Hn (H1 & H2 & Hi) Hhi Hlo Hsq. unfold declares_ok. destruct o; cbn [uop_func un_max un_min un_integral un_new] in *.
  - destruct (dbg && _); [discriminate Hhi|]. destruct (qleb_spec 0 (b_min a)), (qleb_spec 0 (b_max a)); cbn [andb] in *; try discriminate Hhi; try (injection Hhi as <-); try (injection Hlo as <-).
    + unfold qabs. qcase; [exfalso; qlra|]. auto.
    + unfold qabs. split; [qcase; qlra|]. split; [destruct (qmax_le (b_max a) (- b_min a)); qcase; qlra|]. intros H. qcase; auto using is_int_opp.
    + unfold qabs. split; [qcase; qlra|]. split; [qcase; qlra|]. intros H. qcase; auto using is_int_opp.
  - injection Hhi as <-. injection Hlo as <-. destruct (b2q_range (q2b x)). auto using is_int_b2q.
  - destruct (Hsq eq_refl) as [S1 S2]. assert (M1 : b_min a * b_min a <= x * x) by qnra. assert (M2 : x * x <= b_max a * b_max a) by qnra.
    split; [|split; [|intros H; apply is_int_mult; auto]].
    + destruct (qleb_spec DMAX (b_min a * b_min a)); injection Hlo as <-; auto. eapply Qcle_trans; eassumption.
    + destruct (qleb_spec DMAX (b_max a * b_max a)); injection Hhi as <-; auto.
  - destruct (qltb_spec (b_min a) 0); [discriminate Hn|]. destruct (dbg && qltb (b_max a) 0); [discriminate Hhi|]. rewrite andb_false_r in Hlo.
    injection Hhi as <-. injection Hlo as <-. split; [apply Hroot; qlra|]. split; [apply Hroot; qlra|]. intros H; discriminate H.
  - injection Hhi as <-. injection Hlo as <-. split; [qlra|]. split; [qlra|]. intros H. apply is_int_opp. auto.
  - injection Hhi as <-. injection Hlo as <-. destruct (b2q_range (negb (q2b x))). auto using is_int_b2q.
Qed.

(** ** Several operands *)
Lemma fold_left_map {A B C} (f : C -> B -> C) (g : A -> B) l : forall a, fold_left (fun acc x => f acc (g x)) l a = fold_left f (map g l) a.
Proof. induction l as [|x l IH]; intros a; cbn [fold_left map]; auto. Qed.
Lemma fold_qmax l : forall x, is_max (fold_left qmax l x) (x :: l).
Proof.
  induction l as [|y l IH]; intros x; cbn [fold_left].
  - split; [now left|]. intros z [<-|[]]. apply Qcle_refl.
  - destruct (IH (qmax x y)) as [I1 I2]. destruct (qmax_le x y) as [M1 M2]. split.
    + destruct I1 as [<-|I1]; [|right; now right]. unfold qmax. qcase; [right; now left|now left].
    + intros z [<-|[<-|Hz]]; [eapply Qcle_trans; [exact M1|]|eapply Qcle_trans; [exact M2|]|]; apply I2; [now left..|now right].
Qed.
Lemma fold_qmin l : forall x, is_min (fold_left qmin l x) (x :: l).
Proof.
  induction l as [|y l IH]; intros x; cbn [fold_left].
  - split; [now left|]. intros z [<-|[]]. apply Qcle_refl.
  - destruct (IH (qmin x y)) as [I1 I2]. destruct (qmin_le x y) as [M1 M2]. split.
    + destruct I1 as [<-|I1]; [|right; now right]. unfold qmin. qcase; [right; now left|now left].
    + intros z [<-|[<-|Hz]]; [eapply Qcle_trans; [|exact M1]|eapply Qcle_trans; [|exact M2]|]; apply I2; [now left..|now right].
Qed.
Lemma F2_in_l {A B} (R : A -> B -> Prop) l m a : Forall2 R l m -> In a l -> exists b, In b m /\ R a b.
Proof. induction 1 as [|x y l m H F IH]; intros Hin; [destruct Hin|]. destruct Hin as [<-|Hin]; [exists y; split; [now left|auto]|]. destruct (IH Hin) as (b & ? & ?). exists b. split; [now right|auto]. Qed.
Lemma F2_in_r {A B} (R : A -> B -> Prop) l m b : Forall2 R l m -> In b m -> exists a, In a l /\ R a b.
Proof. induction 1 as [|x y l m H F IH]; intros Hin; [destruct Hin|]. destruct Hin as [<-|Hin]; [exists x; split; [now left|auto]|]. destruct (IH Hin) as (a & ? & ?). exists a. split; [now right|auto]. Qed.
Lemma int_sum l : Forall is_int l -> is_int (qsum_of l).
Proof. induction 1 as [|x l H F IH]; cbn [qsum_of]; [exists 0%Z; symmetry; apply zq_0|]. now apply is_int_plus. Qed.
Lemma int_prod l : Forall is_int l -> is_int (qprod_of l).
Proof. induction 1 as [|x l H F IH]; cbn [qprod_of]; [exists 1%Z; symmetry; apply zq_1|]. now apply is_int_mult. Qed.

Lemma nary_ok o bs xs r hi lo : Forall2 within bs xs -> combines o xs r -> nary_max o bs = Ok hi -> nary_min o bs = Ok lo ->
  declares_ok lo hi (nary_integral bs) r.
Proof.
  intros F Hr Hhi Hlo.
  assert (Fi : nary_integral bs = true -> Forall is_int xs).
  { unfold nary_integral. clear - F. induction F as [|b x bs xs (_ & _ & H) F IH]; intros E; constructor; cbn [forallb] in E; apply andb_prop in E as [E1 E2]; auto. }
  assert (G : lo <= r /\ r <= hi).
  2:{ unfold declares_ok. split; [tauto|]. split; [tauto|]. intros E. specialize (Fi E). destruct o; cbn [combines] in Hr; try (rewrite Forall_forall in Fi; apply Fi, Hr); subst r; [now apply int_prod|now apply int_sum]. }
  clear Fi. destruct o; cbn [combines nary_max nary_min] in *.
  - destruct bs as [|b bs]; [discriminate Hhi|]. injection Hhi as <-. injection Hlo as <-. rewrite (fold_left_map qmax b_max), (fold_left_map qmax b_min). destruct Hr as [R1 R2].
    destruct (fold_qmax (map b_max bs) (b_max b)) as [_ M2]. destruct (fold_qmax (map b_min bs) (b_min b)) as [N1 _].
    split.
    + change (b_min b :: map b_min bs) with (map b_min (b :: bs)) in N1. apply in_map_iff in N1 as (c & Ec & Hc). destruct (F2_in_l _ _ _ _ F Hc) as (x & Hx & W & _). rewrite <- Ec. eapply Qcle_trans; [exact W|]. auto.
    + destruct (F2_in_r _ _ _ _ F R1) as (c & Hc & _ & W & _). eapply Qcle_trans; [exact W|]. apply M2. change (b_max b :: map b_max bs) with (map b_max (b :: bs)). now apply in_map.
  - destruct bs as [|b bs]; [discriminate Hhi|]. injection Hhi as <-. injection Hlo as <-. rewrite (fold_left_map qmin b_max), (fold_left_map qmin b_min). destruct Hr as [R1 R2].
    destruct (fold_qmin (map b_max bs) (b_max b)) as [M1 _]. destruct (fold_qmin (map b_min bs) (b_min b)) as [_ N2].
    split.
    + destruct (F2_in_r _ _ _ _ F R1) as (c & Hc & W & _ & _). eapply Qcle_trans; [|exact W]. apply N2. change (b_min b :: map b_min bs) with (map b_min (b :: bs)). now apply in_map.
    + change (b_max b :: map b_max bs) with (map b_max (b :: bs)) in M1. apply in_map_iff in M1 as (c & Ec & Hc). destruct (F2_in_l _ _ _ _ F Hc) as (x & Hx & _ & W & _). rewrite <- Ec. eapply Qcle_trans; [|exact W]. auto.
  - destruct bs as [|b bs]; [discriminate Hhi|]. injection Hhi as <-. injection Hlo as <-. inversion F as [|? x ? xs' (W1 & W2 & _) F']; subst. cbn [qprod_of].
    assert (G : forall bs xs lo hi x, Forall2 within bs xs -> lo <= x -> x <= hi ->
      fst (fold_left nary_prod1 bs (lo, hi)) <= x * qprod_of xs /\ x * qprod_of xs <= snd (fold_left nary_prod1 bs (lo, hi))).
    { clear. intros bs xs lo hi x F. revert lo hi x. induction F as [|b y bs xs (W1 & W2 & _) F IH]; intros lo hi x H1 H2; cbn [fold_left qprod_of fst snd].
      - split; qlra.
      - unfold nary_prod1 at 2 4. cbn [fst snd]. destruct (prods_ok (Bnd lo hi false) b x y) as [P1 P2]; auto.
        specialize (IH _ _ _ P1 P2). rewrite Qcmult_assoc. exact IH. }
    now apply G.
  - subst r. assert (Hh : hi = fold_left (fun lhs b => lhs + b_max b) bs 0) by congruence. assert (Hl : lo = fold_left (fun lhs b => lhs + b_min b) bs 0) by congruence. subst hi lo. clear Hhi Hlo.
    assert (G : forall bs xs lo hi x, Forall2 within bs xs -> lo <= x -> x <= hi ->
      fold_left (fun lhs b => lhs + b_min b) bs lo <= x + qsum_of xs /\ x + qsum_of xs <= fold_left (fun lhs b => lhs + b_max b) bs hi).
    { clear. intros bs xs lo hi x F. revert lo hi x. induction F as [|b y bs xs (W1 & W2 & _) F IH]; intros lo hi x H1 H2; cbn [fold_left qsum_of].
      - split; qlra.
      - rewrite Qcplus_assoc. apply IH; qlra. }
    specialize (G bs xs 0 0 0 F (Qcle_refl _) (Qcle_refl _)). rewrite Qcplus_0_l in G. exact G.
Qed.

(** ** Products of several elements *)
Lemma pow_S x n : x ^ (Datatypes.S n) = x * x ^ n.
Proof. reflexivity. Qed.
Lemma pow_nonneg x n : 0 <= x -> 0 <= x ^ n.
Proof. intros H. induction n as [|n IH]; [qlra|]. rewrite pow_S. qnra. Qed.
Lemma prod_pos low high l : 0 <= low -> Forall (fun x => low <= x /\ x <= high) l ->
  low ^ length l <= qprod_of l /\ qprod_of l <= high ^ length l.
Proof.
  intros H0. induction 1 as [|x l [H1 H2] F IH]; cbn [length qprod_of]; [split; apply Qcle_refl|]. rewrite !pow_S. destruct IH as [I1 I2].
  assert (0 <= low ^ length l) by now apply pow_nonneg. split; qnra.
Qed.
Lemma prod_mix low high l : low < 0 -> - low <= high -> l <> [] -> Forall (fun x => low <= x /\ x <= high) l ->
  low * high ^ (length l - 1) <= qprod_of l /\ qprod_of l <= high ^ length l.
Proof.
  intros H0 H1 Hn F. assert (Hh : 0 <= high) by qlra. induction F as [|x l [X1 X2] F IH]; [contradiction|]. destruct l as [|y l].
  - cbn [length qprod_of Nat.sub]. change (high ^ 0) with 1. change (high ^ 1) with (high * 1). rewrite !Qcmult_1_r. auto.
  - specialize (IH ltac:(discriminate)). remember (y :: l) as l' eqn:El. assert (L : length l' = Datatypes.S (length l)) by (subst; reflexivity).
    cbn [length qprod_of]. rewrite L in *. cbn [Nat.sub] in *. rewrite Nat.sub_0_r in IH. rewrite !pow_S in *. set (p := high ^ length l) in *. assert (Hp : 0 <= p) by now apply pow_nonneg.
    destruct IH as [I1 I2]. set (q := qprod_of l') in *. clearbody p q.
    assert (A : 0 <= high * p) by qnra. assert (B : low * (high * p) <= high * (low * p)) by (replace (high * (low * p)) with (low * (high * p)) by ring; apply Qcle_refl).
    pose proof (hull_mul _ _ _ _ _ _ (hull_2 _ _ _ X1 X2) (hull_2 _ _ _ I1 I2)) as G.
    apply (hull_2_inv (low * (high * p)) (high * (high * p))).
    { assert (0 <= (high - low) * (high * p)) by qnra. replace (high * (high * p)) with (low * (high * p) + (high - low) * (high * p)) by ring. qlra. }
    eapply hull_trans; [exact G|]. intros z Hz.
    assert (C : hull [low * (high * p); high * (high * p)] (low * (low * p))).
    { exists (low * (high * p)), (high * (high * p)). repeat split; cbn; auto.
      - assert (0 <= (- low) * (high - low) * p) by (assert (0 <= (- low) * (high - low)) by qnra; qnra). replace (low * (low * p)) with (low * (high * p) + (- low) * (high - low) * p) by ring. qlra.
      - assert (0 <= (high * high - low * low) * p) by (assert (0 <= high * high - low * low) by qnra; qnra). replace (high * (high * p)) with (low * (low * p) + (high * high - low * low) * p) by ring. qlra. }
    cbn [In] in Hz. destruct Hz as [<-|[<-|[<-|[<-|[]]]]]; auto; apply hull_in; cbn; auto. left. ring.
Qed.
Definition sgn (n : nat) : Qc := (- (1)) ^ n.
Lemma sgn_cases n : sgn n = 1 \/ sgn n = - (1).
Proof. induction n as [|n [E|E]]; [left; reflexivity|right|left]; unfold sgn in *; rewrite pow_S, E; ring. Qed.
Lemma pow_opp x n : (- x) ^ n = sgn n * x ^ n.
Proof. induction n as [|n IH]; [unfold sgn; cbn; ring|]. unfold sgn in *. rewrite !pow_S, IH. ring. Qed.
Lemma prod_opp l : qprod_of (map Qcopp l) = sgn (length l) * qprod_of l.
Proof. induction l as [|x l IH]; cbn [map qprod_of length]; [unfold sgn; cbn; ring|]. unfold sgn in *. rewrite pow_S, IH. ring. Qed.
Lemma Forall_opp low high l : Forall (fun x => low <= x /\ x <= high) l -> Forall (fun x => - high <= x /\ x <= - low) (map Qcopp l).
Proof. induction 1 as [|x l [H1 H2] F IH]; cbn [map]; constructor; auto. split; qlra. Qed.
Lemma sgn_sq n x : sgn n * (sgn n * x) = x.
Proof. destruct (sgn_cases n) as [E|E]; rewrite E; ring. Qed.
Lemma prod_hull low high l : l <> [] -> Forall (fun x => low <= x /\ x <= high) l ->
  hull [low ^ length l; high ^ length l; low * high ^ (length l - 1); high * low ^ (length l - 1)] (qprod_of l).
Proof.
  intros Hn F. set (n := length l).
  destruct (Qclt_le_dec low 0) as [Hl|Hl].
  2:{ destruct (prod_pos low high l Hl F). exists (low ^ n), (high ^ n). cbn; auto. }
  destruct (Qclt_le_dec high (- low)) as [Hh|Hh].
  2:{ destruct (prod_mix low high l Hl Hh Hn F). exists (low * high ^ (n - 1)), (high ^ n). cbn; auto. }
  pose proof (Forall_opp _ _ _ F) as F'. assert (Ln : length (map Qcopp l) = n) by now rewrite map_length.
  rewrite <- (sgn_sq n (qprod_of l)). replace (sgn n * qprod_of l) with (qprod_of (map Qcopp l)) by apply prod_opp.
  assert (Hs : forall k, (0 < k)%nat -> sgn k = - sgn (k - 1)).
  { intros [|k] Hk; [lia|]. cbn [Nat.sub]. rewrite Nat.sub_0_r. unfold sgn. rewrite pow_S. ring. }
  assert (Hn0 : (0 < n)%nat) by (unfold n; destruct l; [contradiction|cbn; lia]).
  destruct (Qclt_le_dec 0 high) as [Hh0|Hh0].
  - destruct (prod_mix (- high) (- low) (map Qcopp l)) as [P1 P2]; auto; try qlra. { destruct l; [contradiction|discriminate]. }
    rewrite Ln in P1, P2. rewrite !pow_opp in P1, P2. pose proof (hull_scale (sgn n) _ _ (hull_2 _ _ _ P1 P2)) as G. eapply hull_trans; [exact G|].
    intros y Hy. cbn [map In] in Hy. apply hull_in. destruct Hy as [<-|[<-|[]]].
    + right. right. right. left. rewrite (Hs n Hn0). pose proof (sgn_sq (n - 1) (high * low ^ (n - 1))) as E. rewrite <- E at 1. ring.
    + left. now rewrite sgn_sq.
  - destruct (prod_pos (- high) (- low) (map Qcopp l)) as [P1 P2]; auto; try qlra.
    rewrite Ln in P1, P2. rewrite !pow_opp in P1, P2. pose proof (hull_scale (sgn n) _ _ (hull_2 _ _ _ P1 P2)) as G. eapply hull_trans; [exact G|].
    intros y Hy. cbn [map In] in Hy. apply hull_in. destruct Hy as [<-|[<-|[]]]; rewrite sgn_sq; cbn; auto.
Qed.

(** ** Reductions *)
Lemma sum_range a l : Forall (within a) l -> zq (Z.of_nat (length l)) * b_min a <= qsum_of l /\ qsum_of l <= zq (Z.of_nat (length l)) * b_max a.
Proof.
  induction 1 as [|x l (H1 & H2 & _) F IH]; cbn [length qsum_of]; [change (Z.of_nat 0) with 0%Z; rewrite zq_0; split; qlra|].
  replace (Z.of_nat (Datatypes.S (length l))) with (1 + Z.of_nat (length l))%Z by lia. rewrite <- zq_plus, zq_1. destruct IH. split; rewrite Qcmult_plus_distr_l; qlra.
Qed.
Lemma scale_le m n h : (m <= n)%Z -> (0 <= h -> zq m * h <= zq n * h) /\ (h <= 0 -> zq n * h <= zq m * h).
Proof. intros H. apply (proj2 (zq_le m n)) in H. split; intros; qnra. Qed.

Lemma red_bounds_ok o init a size smin smax l r : Forall (within a) l ->
  ((0 <= size)%Z -> size = Z.of_nat (length l)) ->
  (forall m, smin = Some m -> (m <= Z.of_nat (length l))%Z) -> (forall m, smax = Some m -> (Z.of_nat (length l) <= m)%Z) ->
  reduces_to o (olist init ++ l) r -> (o = RMax \/ o = RMin -> l <> []) ->
  ((size < 0)%Z -> o = RMul \/ o = RAdd -> finite_double r) ->
  declares_ok (red_min o init a size smin smax) (red_max o init a size smin smax) (red_integral o init a) r.
Proof.
  intros F Hsz Hmin Hmax Hr Hne Hfin.
  assert (Fi : b_int a && is_integer (init_or init 0) = true -> Forall is_int (olist init ++ l)).
  { intros E. apply andb_prop in E as [E1 E2]. apply Forall_app. split.
    - destruct init as [i|]; cbn [olist init_or] in *; constructor; auto. now apply is_integer_spec.
    - eapply Forall_impl; [|exact F]. intros x (_ & _ & H). auto. }
  assert (Fr : Forall (fun x => b_min a <= x /\ x <= b_max a) l) by (eapply Forall_impl; [|exact F]; intros x (? & ? & _); auto).
  assert (E0 : qsum_of (olist init ++ l) = init_or init 0 + qsum_of l) by (destruct init; cbn [olist app qsum_of init_or]; ring).
  assert (E1 : qprod_of (olist init ++ l) = init_or init 1 * qprod_of l) by (destruct init; cbn [olist app qprod_of init_or]; ring).
  unfold declares_ok. destruct o; cbn [red_min red_max red_integral reduces_to] in *.
  - assert (R : exists b, r = b2q b) by (destruct Hr as [[-> _]|[-> _]]; [exists true|exists false]; reflexivity). destruct R as [b ->]. destruct (b2q_range b). auto using is_int_b2q.
  - assert (R : exists b, r = b2q b) by (destruct Hr as [[-> _]|[-> _]]; [exists true|exists false]; reflexivity). destruct R as [b ->]. destruct (b2q_range b). auto using is_int_b2q.
  - destruct Hr as [R1 R2]. destruct l as [|y l]; [exfalso; apply (Hne (or_introl eq_refl)); reflexivity|]. clear Hne. rewrite Forall_forall in Fr.
    assert (Hy : b_min a <= r) by (eapply Qcle_trans; [apply (Fr y (or_introl eq_refl))|apply R2; apply in_or_app; right; now left]).
    destruct init as [i|]; cbn [olist app] in *.
    + destruct (qmax_le i (b_max a)). split; [unfold qmax; qcase; auto; apply R2; now left|]. split; [|intros E; specialize (Fi E); rewrite Forall_forall in Fi; now apply Fi].
      destruct R1 as [<-|R1]; [auto|]. eapply Qcle_trans; [apply (Fr r R1)|auto].
    + split; auto. split; [apply (Fr r R1)|]. intros E. specialize (Fi E). rewrite Forall_forall in Fi. now apply Fi.
  - destruct Hr as [R1 R2]. destruct l as [|y l]; [exfalso; apply (Hne (or_intror eq_refl)); reflexivity|]. clear Hne. rewrite Forall_forall in Fr.
    assert (Hy : r <= b_max a) by (eapply Qcle_trans; [apply R2; apply in_or_app; right; now left|apply (Fr y (or_introl eq_refl))]).
    destruct init as [i|]; cbn [olist app] in *.
    + destruct (qmin_le i (b_min a)). split; [|split; [unfold qmin; qcase; auto; apply R2; now left|intros E; specialize (Fi E); rewrite Forall_forall in Fi; now apply Fi]].
      destruct R1 as [<-|R1]; [auto|]. eapply Qcle_trans; [|apply (Fr r R1)]. auto.
    + split; [apply (Fr r R1)|]. split; auto. intros E. specialize (Fi E). rewrite Forall_forall in Fi. now apply Fi.
  - subst r. assert (I : b_int a && is_integer (init_or init 0) = true -> is_int (qprod_of (olist init ++ l))) by (intros E; apply int_prod; auto).
    rewrite E1 in *. set (i := init_or init 1) in *. destruct (Z.ltb_spec size 0) as [Hd|Hd].
    + destruct (Hfin Hd (or_introl eq_refl)). auto.
    + specialize (Hsz Hd). subst size. destruct (Z.eqb_spec (Z.of_nat (length l)) 0) as [L0|L0].
      * destruct l; [|cbn [length] in L0; lia]. cbn [qprod_of]. split; [qlra|]. split; [qlra|exact I].
      * destruct (Z.eqb_spec (Z.of_nat (length l)) 1) as [L1|L1].
        -- destruct l as [|x [|y l]]; cbn [length] in L1; try lia. inversion Fr as [|? ? [X1 X2] _]; subst. cbn [qprod_of] in *. rewrite Qcmult_1_r in *.
           pose proof (hull_scale i _ _ (hull_2 _ _ _ X1 X2)) as (c1 & c2 & H1 & H2 & H3 & H4). cbn [map In] in H1, H2.
           destruct (qmax_le (i * b_min a) (i * b_max a)), (qmin_le (i * b_min a) (i * b_max a)).
           split; [|split; [|exact I]].
           ++ eapply Qcle_trans; [|exact H3]. destruct H1 as [<-|[<-|[]]]; auto.
           ++ eapply Qcle_trans; [exact H4|]. destruct H2 as [<-|[<-|[]]]; auto.
        -- assert (Hl : l <> []) by (intros ->; apply L0; reflexivity).
           pose proof (hull_scale i _ _ (prod_hull _ _ _ Hl Fr)) as G. cbn [map] in G. apply hull_4 in G. unfold pows, pow. fold i.
           rewrite Nat2Z.id. replace (Z.to_nat (Z.of_nat (length l) - 1)) with (length l - 1)%nat by lia. rewrite <- !Qcmult_assoc. split; [tauto|]. split; [tauto|exact I].
  - subst r. assert (I : b_int a && is_integer (init_or init 0) = true -> is_int (qsum_of (olist init ++ l))) by (intros E; apply int_sum; auto).
    rewrite E0 in *. set (i := init_or init 0) in *. destruct (sum_range a l F) as [S1 S2]. split; [|split; [|exact I]].
    + destruct (qeqb_spec (b_min a) 0) as [Z0|Z0]; [rewrite Z0 in S1; qlra|]. destruct (Z.leb_spec 0 size) as [Hd|Hd]; [rewrite (Hsz Hd); qlra|].
      destruct (qltb_spec (b_min a) 0) as [N|N].
      * destruct smax as [m|]; [|apply (Hfin Hd (or_intror eq_refl))]. pose proof (proj2 (scale_le _ _ (b_min a) (Hmax m eq_refl))) as P. specialize (P ltac:(qlra)). qlra.
      * assert (M : (match smin with Some m => m | None => 0 end <= Z.of_nat (length l))%Z) by (destruct smin as [m|]; [auto|lia]).
        pose proof (proj1 (scale_le _ _ (b_min a) M)) as P. specialize (P ltac:(qlra)). qlra.
    + destruct (qeqb_spec (b_max a) 0) as [Z0|Z0]; [rewrite Z0 in S2; qlra|]. destruct (Z.leb_spec 0 size) as [Hd|Hd]; [rewrite (Hsz Hd); qlra|].
      destruct (qltb_spec 0 (b_max a)) as [N|N].
      * destruct smax as [m|]; [|apply (Hfin Hd (or_intror eq_refl))]. pose proof (proj1 (scale_le _ _ (b_max a) (Hmax m eq_refl))) as P. specialize (P ltac:(qlra)). qlra.
      * assert (M : (match smin with Some m => m | None => 0 end <= Z.of_nat (length l))%Z) by (destruct smin as [m|]; [auto|lia]).
        pose proof (proj2 (scale_le _ _ (b_max a) M)) as P. specialize (P ltac:(qlra)). qlra.
Qed.
