From Verif Require Import Base SliceModel ShapeModel ShapeSpec StateDataModel StateDataSpec StateDataProofs Replay
  NodeSpec NodeLib BinaryModel NodeShape BinaryProofs Num NaryModel NarySpec NaryProofs ReduceModel ReduceSpec.
Local Open Scope Qc_scope.

(** One step of a replay, as a change of the element list. *)
Inductive elem_step (l : list Qc) (u : update Qc) (l1 : list Qc) : Prop :=
| EChange p o v s : uold u = Some o -> uval u = Some v -> l = p ++ o :: s -> l1 = p ++ v :: s -> elem_step l u l1
| EPlace v : uold u = None -> uval u = Some v -> l1 = l ++ [v] -> elem_step l u l1
| ERemove o : uold u = Some o -> uval u = None -> l = l1 ++ [o] -> elem_step l u l1.

Lemma rp1_elem l u l1 : replay1 qeqb l u = Some l1 -> elem_step l u l1.
Proof.
  intros H. apply (rp1_inv qeqb_spec) in H. destruct H as [o v Eu En El|v Eu El|o Eu El].
  - destruct (nth_error_split l _ En) as (p & s & E & L).
    apply (EChange l u l1 p o v s); try (rewrite Eu; reflexivity); [exact E|].
    rewrite El, E, <- L. apply lset_mid.
  - apply (EPlace l u l1 v); try (rewrite Eu; reflexivity). exact El.
  - apply (ERemove l u l1 o); try (rewrite Eu; reflexivity). exact El.
Qed.

(** * Counting *)
Definition zcount (c : Qc -> bool) (l : list Qc) : Z := Z.of_nat (length (filter c l)).
Lemma zcount_app c a b : zcount c (a ++ b) = (zcount c a + zcount c b)%Z.
Proof. unfold zcount. rewrite filter_app, app_length. lia. Qed.
Lemma zcount_cons c x l : zcount c (x :: l) = (b2z (c x) + zcount c l)%Z.
Proof. unfold zcount. cbn [filter]. destruct (c x); cbn [length b2z]; lia. Qed.
Lemma zcount_nil c : zcount c [] = 0%Z. Proof. reflexivity. Qed.
Lemma zcount_pos c l : (0 <= zcount c l)%Z. Proof. unfold zcount. lia. Qed.

Lemma fold_count c l : forall n, fold_left (fun n v => (n + b2z (c v))%Z) l n = (n + zcount c l)%Z.
Proof. induction l as [|x l IH]; intros n; cbn [fold_left]; [rewrite zcount_nil; lia|]. rewrite IH, zcount_cons. lia. Qed.

Lemma count_loop c us : forall l l1 k, replay qeqb l us = Some l1 ->
  rfold (count1 c) (k + zcount c l)%Z us = Ok (k + zcount c l1)%Z.
Proof.
  induction us as [|u us IH]; intros l l1 k H.
  - rewrite rp_nil in H. injection H as <-. reflexivity.
  - destruct (rp_cons_inv _ _ _ _ H) as [l0 [H1 H2]]. cbn [rfold].
    assert (S : count1 c (k + zcount c l)%Z u = Ok (k + zcount c l0)%Z).
    { unfold count1. destruct (rp1_elem _ _ _ H1) as [p o v s U1 U2 E1 E2|v U1 U2 E|o U1 U2 E]; rewrite U1, U2; rewrite ?E1, ?E2, ?E;
        rewrite ?zcount_app, ?zcount_cons, ?zcount_nil; [|f_equal; lia|f_equal; lia].
      destruct (c o), (c v); cbn [andb negb b2z]; f_equal; lia. }
    rewrite S. cbn [rbind]. now apply IH.
Qed.

Lemma zcount_forallb l : (zcount (fun v => negb (q2b v)) l <? 1)%Z = forallb q2b l.
Proof.
  induction l as [|x l IH]; [reflexivity|]. rewrite zcount_cons. cbn [forallb]. rewrite <- IH.
  pose proof (zcount_pos (fun v => negb (q2b v)) l). destruct (q2b x); cbn [negb b2z andb]; [f_equal; lia|].
  apply Z.ltb_ge. lia.
Qed.
Lemma zcount_existsb l : (0 <? zcount q2b l)%Z = existsb q2b l.
Proof.
  induction l as [|x l IH]; [reflexivity|]. rewrite zcount_cons. cbn [existsb]. rewrite <- IH.
  pose proof (zcount_pos q2b l). destruct (q2b x); cbn [b2z orb]; [apply Z.ltb_lt; lia|f_equal; lia].
Qed.

(** * Products *)
Definition is0 (x : Qc) : bool := qeqb x 0.
Definition nzprod (l : list Qc) : Qc := qprod_of (filter (fun x => negb (is0 x)) l).
Lemma nzprod_app a b : nzprod (a ++ b) = nzprod a * nzprod b.
Proof. unfold nzprod. rewrite filter_app. apply qprod_of_app. Qed.
Lemma nzprod_cons x l : nzprod (x :: l) = (if is0 x then 1 else x) * nzprod l.
Proof. unfold nzprod. cbn [filter]. destruct (is0 x); cbn [negb qprod_of]; [ring|reflexivity]. Qed.
Lemma nzprod_nil : nzprod [] = 1. Proof. reflexivity. Qed.

Lemma mul_init l : forall nz n,
  fold_left (fun (st : Qc * Z) v => if qeqb v 0 then (fst st, (snd st + 1)%Z) else ((fst st * v), snd st)) l (nz, n)
  = (nz * nzprod l, (n + zcount is0 l)%Z).
Proof.
  induction l as [|x l IH]; intros nz n; cbn [fold_left].
  - rewrite nzprod_nil, zcount_nil. f_equal; [ring|lia].
  - cbn [fst snd]. rewrite nzprod_cons, zcount_cons. change (qeqb x 0) with (is0 x). destruct (is0 x); rewrite IH; cbn [b2z]; f_equal; try ring; lia.
Qed.

Lemma mul_loop us : forall l l1 i k, replay qeqb l us = Some l1 ->
  rfold mul1 (i * nzprod l, (k + zcount is0 l)%Z) us = Ok (i * nzprod l1, (k + zcount is0 l1)%Z).
Proof.
  induction us as [|u us IH]; intros l l1 i k H.
  - rewrite rp_nil in H. injection H as <-. reflexivity.
  - destruct (rp_cons_inv _ _ _ _ H) as [l0 [H1 H2]]. cbn [rfold].
    assert (S : mul1 (i * nzprod l, (k + zcount is0 l)%Z) u = Ok (i * nzprod l0, (k + zcount is0 l0)%Z)).
    { unfold mul1. destruct (rp1_elem _ _ _ H1) as [p o v s U1 U2 E1 E2|v U1 U2 E|o U1 U2 E]; rewrite U1, U2; rewrite ?E1, ?E2, ?E;
        rewrite ?zcount_app, ?zcount_cons, ?zcount_nil, ?nzprod_app, ?nzprod_cons, ?nzprod_nil; unfold is0.
      - destruct (qeqb_spec o 0) as [-> |N1], (qeqb_spec v 0) as [-> |N2]; cbn [andb b2z]; f_equal; f_equal; try lia; try (field; exact N1); ring.
      - destruct (qeqb_spec v 0) as [-> |N2]; cbn [b2z]; f_equal; f_equal; try lia; ring.
      - destruct (qeqb_spec o 0) as [-> |N1]; cbn [b2z]; f_equal; f_equal; try lia; try (field; exact N1); ring. }
    rewrite S. cbn [rbind]. now apply IH.
Qed.

Lemma prod_zeros i l : (if (0 <? zcount is0 l)%Z then 0 else i * nzprod l) = i * qprod_of l.
Proof.
  induction l as [|x l IH]; [reflexivity|]. rewrite zcount_cons, nzprod_cons. cbn [qprod_of].
  pose proof (zcount_pos is0 l). assert (S : reflect (x = 0) (is0 x)) by apply qeqb_spec. destruct S as [-> |N]; cbn [b2z].
  - destruct (Z.ltb_spec 0 (1 + zcount is0 l)); [ring|lia].
  - rewrite Z.add_0_l. replace (i * (x * qprod_of l)) with (x * (i * qprod_of l)) by ring. rewrite <- IH.
    destruct (0 <? _)%Z; ring.
Qed.

(** * Sums *)
Lemma add_loop us : forall l l1 i, replay qeqb l us = Some l1 ->
  rfold add1 (i + qsum_of l) us = Ok (i + qsum_of l1).
Proof.
  induction us as [|u us IH]; intros l l1 i H.
  - rewrite rp_nil in H. injection H as <-. reflexivity.
  - destruct (rp_cons_inv _ _ _ _ H) as [l0 [H1 H2]]. cbn [rfold].
    assert (S : add1 (i + qsum_of l) u = Ok (i + qsum_of l0)).
    { unfold add1. destruct (rp1_elem _ _ _ H1) as [p o v s U1 U2 E1 E2|v U1 U2 E|o U1 U2 E]; rewrite U1, U2; rewrite ?E1, ?E2, ?E;
        rewrite ?qsum_of_app; cbn [qsum_of]; f_equal; ring. }
    rewrite S. cbn [rbind]. now apply IH.
Qed.
Lemma fold_add l : forall i, fold_left Qcplus l i = i + qsum_of l.
Proof. induction l as [|x l IH]; intros i; cbn [fold_left qsum_of]; [ring|]. rewrite IH. ring. Qed.

(** * Extrema, for either order *)
Section Ext.
Variable le : Qc -> Qc -> Prop.
Variables ge gt : Qc -> Qc -> bool.
Variable f : Qc -> Qc -> Qc.
Hypothesis le_refl : forall x, le x x.
Hypothesis le_trans : forall x y z, le x y -> le y z -> le x z.
Hypothesis le_anti : forall x y, le x y -> le y x -> x = y.
Hypothesis le_total : forall x y, le x y \/ le y x.
Hypothesis ge_spec : forall x y, reflect (le y x) (ge x y).
Hypothesis gt_spec : forall x y, reflect (~ le x y) (gt x y).
Hypothesis f_spec : forall x y, (f x y = x /\ le y x) \/ (f x y = y /\ le x y).

Definition is_ext (m : Qc) (e : list Qc) : Prop := In m e /\ forall x, In x e -> le x m.
Lemma ext_unique m m' e : is_ext m e -> is_ext m' e -> m = m'.
Proof. intros [A B] [C D]. apply le_anti; auto. Qed.
Lemma ext_fold l : forall x, is_ext (fold_left f l x) (x :: l).
Proof.
  induction l as [|y l IH]; intros x; cbn [fold_left].
  - split; [now left|]. intros z [<- |[]]. apply le_refl.
  - destruct (IH (f x y)) as [A B]. assert (X : le (f x y) (fold_left f l (f x y))) by (apply B; now left).
    split.
    + destruct A as [A|A]; [|right; right; exact A]. rewrite <- A.
      destruct (f_spec x y) as [[-> _]|[-> _]]; [now left|right; now left].
    + intros z [<- |[<- |H]]; [| |apply B; now right].
      * eapply le_trans; [|exact X]. destruct (f_spec x y) as [[-> ?]|[-> ?]]; auto.
      * eapply le_trans; [|exact X]. destruct (f_spec x y) as [[-> ?]|[-> ?]]; auto.
Qed.
Lemma ext_add m e v p s : (forall x, In x (p ++ v :: s) <-> x = v \/ In x e) -> is_ext m e -> is_ext (f v m) (p ++ v :: s).
Proof.
  intros H [A B]. split.
  - apply H. destruct (f_spec v m) as [[-> _]|[-> _]]; auto.
  - intros x Hx. apply H in Hx. destruct (f_spec v m) as [[-> L]|[-> L]]; destruct Hx as [-> |Hx]; auto.
    eapply le_trans; eauto.
Qed.

Lemma ext_loop pre us : forall l l1 m, replay qeqb l us = Some l1 -> is_ext m (pre ++ l) ->
  extremum ge gt f m us = Ok None \/ exists m', extremum ge gt f m us = Ok (Some m') /\ is_ext m' (pre ++ l1).
Proof.
  induction us as [|u us IH]; intros l l1 m H M.
  - rewrite rp_nil in H. injection H as <-. right. exists m. auto.
  - destruct (rp_cons_inv _ _ _ _ H) as [l0 [H1 H2]]. cbn [extremum].
    destruct (rp1_elem _ _ _ H1) as [p o v s U1 U2 E1 E2|v U1 U2 E|o U1 U2 E]; rewrite U1, U2.
    + assert (Mo : le o m) by (apply M; rewrite E1, !in_app_iff; cbn; auto).
      destruct (gt_spec v o) as [G|G].
      * apply (IH l0 l1); [exact H2|]. destruct M as [A B]. rewrite E1 in A, B. rewrite E2.
        assert (A' : forall x, In x (pre ++ p ++ v :: s) <-> x = v \/ In x (pre ++ p ++ s)).
        { intros x. rewrite !in_app_iff. cbn [In]. split; intuition. }
        assert (B' : forall x, In x (pre ++ p ++ s) -> le x m).
        { intros x Hx. apply B. rewrite !in_app_iff in *. cbn [In]. intuition. }
        assert (N : le o v) by (destruct (le_total o v); auto; contradiction).
        split.
        -- apply A'. destruct (f_spec v m) as [[-> _]|[-> L]]; [now left|]. right.
           rewrite !in_app_iff in *. cbn [In] in A. destruct A as [A|[A|[A|A]]]; auto.
           exfalso. apply G. rewrite A. exact L.
        -- intros x Hx. apply A' in Hx. destruct (f_spec v m) as [[-> L]|[-> L]]; destruct Hx as [-> |Hx]; auto.
           eapply le_trans; eauto.
      * assert (L : le v o) by (destruct (ge_spec o v); [auto|contradiction]).
        destruct (qeqb_spec o m) as [Em|Nm]; cbn [andb].
        -- destruct (qeqb_spec o v) as [Ev|Nv]; cbn [negb].
           ++ apply (IH l0 l1); [exact H2|]. rewrite E2, <- Ev, <- E1. exact M.
           ++ destruct (gt_spec o v) as [G2|G2]; [now left|]. exfalso. apply G2. intros K. apply Nv. now apply le_anti.
        -- apply (IH l0 l1); [exact H2|]. destruct M as [A B]. rewrite E1 in A, B. rewrite E2. split.
           ++ rewrite !in_app_iff in *. cbn [In] in *. destruct A as [A|[A|[A|A]]]; auto. congruence.
           ++ intros x. rewrite !in_app_iff. cbn [In]. intros [K|[K|[K|K]]]; try (apply B; rewrite !in_app_iff; cbn [In]; tauto).
              rewrite <- K. eapply le_trans; eauto.
    + apply (IH l0 l1); [exact H2|]. rewrite E. rewrite app_assoc. apply (ext_add m (pre ++ l) v (pre ++ l) []); auto.
      intros x. rewrite in_app_iff. cbn [In]. intuition.
    + destruct (ge_spec o m) as [G|G]; [now left|]. apply (IH l0 l1); [exact H2|]. destruct M as [A B]. rewrite E in A, B. split.
      * rewrite !in_app_iff in *. cbn [In] in A. destruct A as [A|[A|[A|[]]]]; auto. exfalso. apply G. rewrite A. apply le_refl.
      * intros x Hx. apply B. rewrite !in_app_iff in *. tauto.
Qed.
End Ext.

Lemma qc_total x y : x <= y \/ y <= x.
Proof. destruct (Qclt_le_dec x y); [left; now apply Qclt_le_weak|right; auto]. Qed.
Lemma qgt_spec x y : reflect (~ x <= y) (qltb y x).
Proof. destruct (qltb_spec y x) as [H|H]; constructor; [now apply Qclt_not_le|]. intros K. apply K. now apply Qcnot_lt_le. Qed.
Lemma qmax_cases x y : (qmax x y = x /\ y <= x) \/ (qmax x y = y /\ x <= y).
Proof. unfold qmax. qcase; [right|left]; split; auto; first [now apply Qclt_le_weak|now apply Qcnot_lt_le]. Qed.
Lemma qmin_cases x y : (qmin x y = x /\ x <= y) \/ (qmin x y = y /\ y <= x).
Proof. unfold qmin. qcase; [right|left]; split; auto; first [now apply Qclt_le_weak|now apply Qcnot_lt_le]. Qed.
Definition qge (x y : Qc) : Prop := y <= x.

Lemma max_fold l x : is_max (fold_left qmax l x) (x :: l).
Proof. apply (ext_fold Qcle qmax Qcle_refl Qcle_trans qmax_cases). Qed.
Lemma min_fold l x : is_min (fold_left qmin l x) (x :: l).
Proof.
  apply (ext_fold qge qmin); unfold qge; intros; [apply Qcle_refl|eapply Qcle_trans; eauto|apply qmin_cases].
Qed.
Lemma max_unique m m' e : is_max m e -> is_max m' e -> m = m'.
Proof. apply (ext_unique Qcle Qcle_antisym). Qed.
Lemma min_unique m m' e : is_min m e -> is_min m' e -> m = m'.
Proof. apply (ext_unique qge). unfold qge. intros x y A B. now apply Qcle_antisym. Qed.
Lemma max_loop pre us l l1 m : replay qeqb l us = Some l1 -> is_max m (pre ++ l) ->
  extremum (fun x y => qleb y x) (fun x y => qltb y x) qmax m us = Ok None \/
  exists m', extremum (fun x y => qleb y x) (fun x y => qltb y x) qmax m us = Ok (Some m') /\ is_max m' (pre ++ l1).
Proof.
  apply (ext_loop Qcle (fun x y => qleb y x) (fun x y => qltb y x) qmax Qcle_refl Qcle_trans Qcle_antisym qc_total);
    intros; [apply qleb_spec|apply qgt_spec|apply qmax_cases].
Qed.
Lemma min_loop pre us l l1 m : replay qeqb l us = Some l1 -> is_min m (pre ++ l) ->
  extremum qleb qltb qmin m us = Ok None \/
  exists m', extremum qleb qltb qmin m us = Ok (Some m') /\ is_min m' (pre ++ l1).
Proof.
  apply (ext_loop qge qleb qltb qmin); unfold qge; intros.
  - apply Qcle_refl.
  - eapply Qcle_trans; eauto.
  - now apply Qcle_antisym.
  - apply qc_total.
  - apply qleb_spec.
  - apply qgt_spec.
  - apply qmin_cases.
Qed.

(** * The node *)
(** The clean state for operand [l]. *)
Definition nz_of o init l : Qc := match o with RMul => ivalue_or init 1 * nzprod l | _ => 1 end.
Definition cnt_of o init l : Z :=
  match o with
  | RAnd => zcount (fun v => negb (q2b v)) (olist init ++ l)
  | ROr => zcount q2b (olist init ++ l)
  | RMul => zcount is0 l
  | _ => 0%Z
  end.
Definition has_init (o : rop) (init : option Qc) : Prop :=
  match o with RMax | RMin => True | _ => init <> None end.

Lemma init_clean o init l x : has_init o init -> red_fun o init [l] = Some [x] ->
  red_init o init [still l] = Ok (r_new x (nz_of o init l) (cnt_of o init l)).
Proof.
  intros HI H. unfold red_init, still. cbn [pview]. destruct o; cbn [has_init nz_of cnt_of] in *.
  - destruct init as [i|]; [|congruence]. cbn [olist app red_fun] in *. injection H as <-. cbn [ivalue_or].
    rewrite fold_count. try change (q2b i || existsb q2b l)%bool with (existsb q2b (i :: l)). try change (q2b i && forallb q2b l)%bool with (forallb q2b (i :: l)). rewrite <- (zcount_forallb (_ :: _)). rewrite zcount_cons.
    pose proof (zcount_pos (fun v => negb (q2b v)) l).
    replace (if q2b i then 0%Z else 1%Z) with (b2z (negb (q2b i))) by (destruct (q2b i); reflexivity).
    f_equal. f_equal. f_equal. destruct (q2b i); cbn [negb b2z]; lia.
  - destruct init as [i|]; [|congruence]. cbn [olist app red_fun] in *. injection H as <-. cbn [ivalue_or].
    rewrite fold_count. try change (q2b i || existsb q2b l)%bool with (existsb q2b (i :: l)). try change (q2b i && forallb q2b l)%bool with (forallb q2b (i :: l)). rewrite <- (zcount_existsb (_ :: _)). rewrite zcount_cons.
    replace (if q2b i then 1%Z else 0%Z) with (b2z (q2b i)) by reflexivity. reflexivity.
  - unfold red_fun in H. unfold red_reduce, rop_func. destruct init as [i|]; cbn [olist app] in H.
    + injection H as <-. reflexivity.
    + destruct l as [|y l]; [discriminate|]. injection H as <-. reflexivity.
  - unfold red_fun in H. unfold red_reduce, rop_func. destruct init as [i|]; cbn [olist app] in H.
    + injection H as <-. reflexivity.
    + destruct l as [|y l]; [discriminate|]. injection H as <-. reflexivity.
  - destruct init as [i|]; [|congruence]. cbn [olist app red_fun] in *. injection H as <-. cbn [ivalue_or].
    rewrite mul_init. rewrite Z.add_0_l, prod_zeros. reflexivity.
  - destruct init as [i|]; [|congruence]. cbn [olist app red_fun] in *. injection H as <-.
    unfold red_reduce, rop_func. rewrite fold_add. reflexivity.
Qed.

Lemma red_fun_max init l x : red_fun RMax init [l] = Some [x] -> is_max x (olist init ++ l).
Proof. unfold red_fun. destruct (olist init ++ l) as [|y t]; [discriminate|]. intros H. injection H as <-. apply max_fold. Qed.
Lemma red_fun_min init l x : red_fun RMin init [l] = Some [x] -> is_min x (olist init ++ l).
Proof. unfold red_fun. destruct (olist init ++ l) as [|y t]; [discriminate|]. intros H. injection H as <-. apply min_fold. Qed.

Lemma reduce_max_ok init l x : red_fun RMax init [l] = Some [x] -> red_reduce RMax init l = Ok x.
Proof.
  unfold red_fun, red_reduce. destruct init as [i|]; cbn [olist app]; [intros H; injection H as <-; reflexivity|].
  destruct l; [discriminate|]. intros H; injection H as <-. reflexivity.
Qed.
Lemma reduce_min_ok init l x : red_fun RMin init [l] = Some [x] -> red_reduce RMin init l = Ok x.
Proof.
  unfold red_fun, red_reduce. destruct init as [i|]; cbn [olist app]; [intros H; injection H as <-; reflexivity|].
  destruct l; [discriminate|]. intros H; injection H as <-. reflexivity.
Qed.

Lemma prop_ok o init l x p x' : has_init o init -> red_fun o init [l] = Some [x] ->
  replay qeqb l (pdiff p) = Some (pview p) -> red_fun o init [pview p] = Some [x'] ->
  red_prop o init (r_new x (nz_of o init l) (cnt_of o init l)) [p] =
  Ok (RData x x' (nz_of o init (pview p)) (nz_of o init l) (cnt_of o init (pview p)) (cnt_of o init l)).
Proof.
  intros HI H R H'. unfold red_prop, r_new, set_val. cbn [r_old r_val x_nz x_nz_old x_cnt x_cnt_old].
  destruct o; cbn [has_init nz_of cnt_of] in *.
  - destruct init as [i|]; [|congruence]. cbn [olist app red_fun] in *. injection H' as <-.
    rewrite !zcount_cons, (count_loop _ _ _ _ _ R). cbn [rbind]. try change (q2b i || existsb q2b (pview p))%bool with (existsb q2b (i :: pview p)). try change (q2b i && forallb q2b (pview p))%bool with (forallb q2b (i :: pview p)). rewrite <- (zcount_forallb (_ :: _)), zcount_cons.
    pose proof (zcount_pos (fun v => negb (q2b v)) (pview p)).
    destruct (Z.ltb_spec (b2z (negb (q2b i)) + zcount (fun v => negb (q2b v)) (pview p)) 0); [destruct (q2b i); cbn [negb b2z] in *; lia|].
    reflexivity.
  - destruct init as [i|]; [|congruence]. cbn [olist app red_fun] in *. injection H' as <-.
    rewrite !zcount_cons, (count_loop _ _ _ _ _ R). cbn [rbind]. try change (q2b i || existsb q2b (pview p))%bool with (existsb q2b (i :: pview p)). try change (q2b i && forallb q2b (pview p))%bool with (forallb q2b (i :: pview p)). rewrite <- (zcount_existsb (_ :: _)), zcount_cons.
    pose proof (zcount_pos q2b (pview p)).
    destruct (Z.ltb_spec (b2z (q2b i) + zcount q2b (pview p)) 0); [destruct (q2b i); cbn [negb b2z] in *; lia|].
    reflexivity.
  - destruct (max_loop _ _ _ _ _ R (red_fun_max _ _ _ H)) as [-> |[m' [-> M]]]; cbn [rbind].
    + rewrite (reduce_max_ok _ _ _ H'). reflexivity.
    + rewrite (max_unique _ _ _ M (red_fun_max _ _ _ H')). reflexivity.
  - destruct (min_loop _ _ _ _ _ R (red_fun_min _ _ _ H)) as [-> |[m' [-> M]]]; cbn [rbind].
    + rewrite (reduce_min_ok _ _ _ H'). reflexivity.
    + rewrite (min_unique _ _ _ M (red_fun_min _ _ _ H')). reflexivity.
  - destruct init as [i|]; [|congruence]. cbn [olist app red_fun ivalue_or] in *. injection H as <-. injection H' as <-.
    cbn [qprod_of]. rewrite <- !prod_zeros.
    replace ((zcount is0 l =? 0)%Z || qeqb (if (0 <? zcount is0 l)%Z then 0 else i * nzprod l) 0) with true.
    2:{ pose proof (zcount_pos is0 l). destruct (Z.eqb_spec (zcount is0 l) 0); [reflexivity|].
        destruct (Z.ltb_spec 0 (zcount is0 l)); [|lia]. rewrite qeqb_refl. reflexivity. }
    pose proof (mul_loop (pdiff p) l (pview p) i 0 R) as M. rewrite !Z.add_0_l in M. rewrite M. cbn [rbind fst snd]. reflexivity.
  - destruct init as [i|]; [|congruence]. cbn [olist app red_fun qsum_of] in *. injection H as <-. injection H' as <-.
    rewrite (add_loop _ _ _ _ R). reflexivity.
Qed.

Lemma red_fun_single o init ins v : red_fun o init ins = Some v -> exists l x, ins = [l] /\ v = [x].
Proof.
  unfold red_fun. destruct ins as [|l [|? ?]]; try discriminate. destruct (olist init ++ l); [discriminate|].
  intros H. injection H as <-. eauto.
Qed.

Theorem red_ok o init s : has_init o init -> node_ok qeqb (red_node o init s) (red_fun o init).
Proof.
  intros HI. constructor.
  exists (fun ins (d : rdata) => exists l x, ins = [l] /\ red_fun o init [l] = Some [x] /\ d = r_new x (nz_of o init l) (cnt_of o init l)).
  cbn [red_node nd_shape nd_pre nd_ST nd_init nd_out nd_prop nd_commit nd_revert]. split; [|split].
  - intros ins v Hf HF. destruct (red_fun_single _ _ _ _ HF) as [l [x [-> ->]]]. split; [reflexivity|].
    eexists. split; [apply init_clean; eauto|]. exists l, x. auto.
  - intros ins d [l [x [-> [HF ->]]]]. exists [x]. split; [exact HF|]. unfold r_out, r_new, still. cbn [r_old r_val].
    now rewrite qeqb_refl.
  - intros ins d v pins v' [l [x [-> [HF ->]]]] HF0 HP _ HF'.
    destruct (red_fun_single _ _ _ _ HF') as [l' [x' [El' ->]]]. assert (v = [x]) by congruence. subst v.
    destruct pins as [|p [|p1 pins]]; try discriminate. cbn [map] in El'. assert (l' = pview p) by congruence. subst l'.
    cbn [combine] in HP. inversion HP as [|a b c e K HP1]; subst. cbn [fst snd] in K.
    cbn [map] in HF'. pose proof (po_replay _ _ _ _ K) as R.
    eexists. split; [apply (prop_ok o init l x p x'); auto|]. split; [|split].
    + eexists. split; [reflexivity|]. cbn [r_out pview r_val]. split; [reflexivity|].
      pose proof (sout_ok qeqb_spec x x') as S. exact S.
    + exists (pview p), x'. auto.
    + eexists. split; [reflexivity|]. exists l, x. auto.
Qed.

Lemma red_new_has_init o init s init' : red_new o init s = Ok init' -> has_init o init'.
Proof.
  unfold red_new. destruct init; [intros H; injection H as <-; destruct o; cbn; auto; discriminate|].
  destruct o; intros H; try (injection H as <-); cbn; auto; discriminate.
Qed.
