From Verif Require Import Base SliceModel ShapeModel StateDataModel StateDataSpec NodeSpec NodeLib BinaryModel Num QuadModel QuadSpec BinaryProofs QuadProofs.
From Coq Require Import Sorting.Sorted.
Local Open Scope Qc_scope.

(** * Sums *)
Lemma sumn_ext n f g : (forall i, (i < n)%nat -> f i = g i) -> sumn n f = sumn n g.
Proof. induction n as [|n IH]; intros H; cbn [sumn]; [reflexivity|]. now rewrite IH, H by auto. Qed.
Lemma sumn_zero n : sumn n (fun _ => 0) = 0.
Proof. induction n as [|n IH]; cbn [sumn]; [reflexivity|]. rewrite IH. ring. Qed.
Lemma sumn_mul n c f : sumn n (fun i => f i * c) = sumn n f * c.
Proof. induction n as [|n IH]; cbn [sumn]; [ring|]. rewrite IH. ring. Qed.

Definition upd (x : nat -> Qc) (i : nat) (v : Qc) (j : nat) : Qc := if (j =? i)%nat then v else x j.
Lemma upd_same x i v : upd x i v i = v.
Proof. unfold upd. now rewrite Nat.eqb_refl. Qed.
Lemma upd_other x i v j : j <> i -> upd x i v j = x j.
Proof. unfold upd. now destruct (Nat.eqb_spec j i). Qed.

Lemma sumn_upd n c x i v : (i < n)%nat ->
  sumn n (fun j => c j * upd x i v j) = sumn n (fun j => c j * x j) + c i * (v - x i).
Proof.
  induction n as [|n IH]; intros H; [lia|]. cbn [sumn]. destruct (Nat.eq_dec i n) as [-> |N].
  - rewrite upd_same. rewrite (sumn_ext n (fun j => c j * upd x n v j) (fun j => c j * x j)); [ring|].
    intros j Hj. rewrite upd_other by lia. reflexivity.
  - rewrite IH by lia. rewrite (upd_other x i v n) by lia. ring.
Qed.
(** The same with the coefficient changed. *)
Lemma sumn_upd_l n f x i v : (i < n)%nat ->
  sumn n (fun j => upd f i v j * x j) = sumn n (fun j => f j * x j) + (v - f i) * x i.
Proof.
  intros H. rewrite (sumn_ext n (fun j => upd f i v j * x j) (fun j => x j * upd f i v j)) by (intros; ring).
  rewrite sumn_upd by auto. rewrite (sumn_ext n (fun j => f j * x j) (fun j => x j * f j)) by (intros; ring). ring.
Qed.
Lemma sumn_cut n i f : (i <= n)%nat -> sumn n (fun j => if (j <? i)%nat then f j else 0) = sumn i f.
Proof.
  induction n as [|n IH]; intros H.
  - replace i with 0%nat by lia. reflexivity.
  - cbn [sumn]. destruct (Nat.eq_dec i (S n)) as [-> |N].
    + cbn [sumn]. rewrite (proj2 (Nat.ltb_lt n (S n))) by lia. f_equal. apply sumn_ext. intros j Hj.
      now rewrite (proj2 (Nat.ltb_lt j (S n))) by lia.
    + rewrite IH by lia. rewrite (proj2 (Nat.ltb_ge n i)) by lia. ring.
Qed.

(** * The polynomial and its increments *)
Lemma qvalue_S n b x : qvalue (S n) b x =
  qvalue n b x + x n * (b_lin b n + b_quad b n n * x n + sumn n (fun j => b_quad b n j * x j)).
Proof.
  unfold qvalue. cbn [sumn].
  rewrite (sumn_ext n (fun j => b_quad b n j * x n * x j) (fun j => b_quad b n j * x j * x n)) by (intros; ring).
  rewrite sumn_mul. ring.
Qed.
Lemma qvalue_ext n b x y : (forall i, (i < n)%nat -> x i = y i) -> qvalue n b x = qvalue n b y.
Proof.
  induction n as [|n IH]; intros H; [reflexivity|]. rewrite !qvalue_S, IH, H by auto.
  rewrite (sumn_ext n (fun j => b_quad b n j * x j) (fun j => b_quad b n j * y j)); [reflexivity|].
  intros j Hj. now rewrite H by auto.
Qed.
Definition effl (n i : nat) (b : biases) (x : nat -> Qc) : Qc :=
  b_lin b i + sumn n (fun j => (if (j =? i)%nat then 0 else b_quad b i j) * x j).

Lemma qvalue_step n b x i v : (forall i j, b_quad b i j = b_quad b j i) -> (i < n)%nat ->
  qvalue n b (upd x i v) = qvalue n b x + (v - x i) * (b_quad b i i * (v + x i) + effl n i b x).
Proof.
  intros S. induction n as [|n IH]; intros H; [lia|]. rewrite !qvalue_S. unfold effl in *. cbn [sumn].
  destruct (Nat.eq_dec i n) as [-> |N].
  - rewrite upd_same, Nat.eqb_refl. rewrite (qvalue_ext n b (upd x n v) x) by (intros; apply upd_other; lia).
    rewrite (sumn_ext n (fun j => b_quad b n j * upd x n v j) (fun j => b_quad b n j * x j)) by (intros; rewrite upd_other by lia; reflexivity).
    rewrite (sumn_ext n (fun j => (if (j =? n)%nat then 0 else b_quad b n j) * x j) (fun j => b_quad b n j * x j)).
    2:{ intros j Hj. destruct (Nat.eqb_spec j n); [lia|reflexivity]. }
    ring.
  - rewrite IH by lia. rewrite sumn_upd by lia. rewrite (upd_other x i v n) by lia.
    destruct (Nat.eqb_spec n i); [lia|]. rewrite (S n i). ring.
Qed.

(** * Sums over adjacency lists *)
Lemma plus_nbrs_ok st n ns : forall bs b, length ns = length bs -> srt ns -> Forall (fun w => w < n)%nat ns -> length st = n ->
  plus_nbrs st ns bs b = Ok (b + sumn n (fun j => alook ns bs j * nth j st 0)).
Proof.
  induction ns as [|k ns IH]; intros [|c bs] b L S F E; try discriminate L; cbn [plus_nbrs].
  - cbn [alook]. rewrite (sumn_ext n (fun j => 0 * nth j st 0) (fun _ => 0)) by (intros; ring). rewrite sumn_zero. f_equal. ring.
  - inversion S as [|? ? S1 S2]; subst. inversion F as [|? ? F1 F2]; subst. unfold rget.
    rewrite (nth_error_nth' st 0) by lia. cbn [rbind]. rewrite IH by (auto; cbn in L; lia). f_equal.
    rewrite (sumn_ext (length st) (fun j => alook (k :: ns) (c :: bs) j * nth j st 0) (fun j => upd (alook ns bs) k c j * nth j st 0)).
    2:{ intros j _. unfold upd. cbn [alook]. now rewrite Nat.eqb_sym. }
    rewrite sumn_upd_l by auto. rewrite (alook_none ns bs k).
    2:{ intros I. rewrite Forall_forall in S2. specialize (S2 k I). lia. }
    ring.
Qed.

Lemma firstn_small u l : srt l -> firstn (small u l) l = filter (fun w => w <? u)%nat l.
Proof.
  induction 1 as [|x l S IH F]; [reflexivity|]. rewrite small_cons. cbn [filter]. destruct (Nat.ltb_spec x u) as [L|L].
  - cbn [Nat.add firstn]. now rewrite IH.
  - assert (G : forall q, Forall (fun y => x < y)%nat q -> filter (fun w => w <? u)%nat q = []).
    { induction 1 as [|y q Hy Hq IHq]; [reflexivity|]. cbn [filter]. destruct (Nat.ltb_spec y u); [lia|exact IHq]. }
    unfold small. rewrite (G l F). reflexivity.
Qed.
Lemma small_le u l : (small u l <= length l)%nat.
Proof. unfold small. induction l as [|x l IH]; [auto|]. cbn [filter length]. destruct (x <? u)%nat; cbn [length]; lia. Qed.
Lemma alook_firstn k ns bs j : srt ns -> alook (firstn k ns) bs j = if in_dec Nat.eq_dec j (firstn k ns) then alook ns bs j else 0.
Proof.
  intros S. destruct (in_dec Nat.eq_dec j (firstn k ns)) as [I|I]; [|now apply alook_none].
  revert bs k I. induction ns as [|x ns IH]; intros bs k I; [now rewrite firstn_nil in I|].
  destruct k; [contradiction I|]. cbn [firstn] in *. destruct bs as [|b bs]; [reflexivity|]. cbn [alook].
  destruct (Nat.eqb_spec x j); [reflexivity|]. apply IH; [now inversion S|]. destruct I; [congruence|assumption].
Qed.
Lemma plus_first st ns bs : forall k b, (k <= length ns)%nat -> length ns = length bs ->
  plus_nbrs st (firstn k ns) bs b = plus_nbrs st (firstn k ns) (firstn k bs) b.
Proof.
  revert bs. induction ns as [|x ns IH]; intros bs k b H L; [now rewrite firstn_nil; destruct k, bs|].
  destruct k; [reflexivity|]. destruct bs as [|c bs]; [discriminate L|]. cbn [firstn plus_nbrs length] in *.
  destruct (rget st x); cbn [rbind]; auto. apply IH; lia.
Qed.
Lemma alook_firstn2 ns bs : forall k j, alook (firstn k ns) (firstn k bs) j = alook (firstn k ns) bs j.
Proof.
  revert bs. induction ns as [|x ns IH]; intros [|b bs] [|k] j; cbn [firstn alook]; auto. now rewrite IH.
Qed.

Lemma eff_ok m n b i st : rep m n b -> (i < n)%nat -> length st = n ->
  eff_linear m i st = Ok (effl n i b (fun j => nth j st 0)).
Proof.
  intros [En Ll Ls La Rl Rs Rq Rm] Hi E. unfold eff_linear, rget. rewrite (Rl i Hi). cbn [rbind].
  destruct (nth_error (qm_adj m) i) as [a|] eqn:Ea; [|apply nth_error_None in Ea; lia].
  cbn [rbind]. destruct (Rq i a Ea) as [[S L R C] H].
  rewrite (plus_nbrs_ok st n) by solve [auto | eapply Forall_impl; [|exact R]; cbn; tauto].
  f_equal. unfold effl. f_equal. apply sumn_ext. intros j Hj. destruct (Nat.eqb_spec j i) as [-> |N].
  - rewrite alook_none; [reflexivity|]. intros I. rewrite Forall_forall in R. now destruct (R i I).
  - now rewrite H by auto.
Qed.

Lemma compute_ok m n b st : rep m n b -> length st = n ->
  compute_value m st = Ok (qvalue n b (fun j => nth j st 0)).
Proof.
  intros [En Ll Ls La Rl Rs Rq Rm] E. unfold compute_value. rewrite En.
  assert (G : forall k, (k <= n)%nat -> forall f, (forall v i, (i < n)%nat -> f v i = Ok (v + nth i st 0 *
     (b_lin b i + b_quad b i i * nth i st 0 + sumn i (fun j => b_quad b i j * nth j st 0)))) ->
     rfold f 0 (seq 0 k) = Ok (qvalue k b (fun j => nth j st 0))).
  { induction k as [|k IH]; intros Hk f Hf; [reflexivity|]. rewrite seq_S, rfold_app. rewrite (IH ltac:(lia) f Hf). cbn [rbind rfold Nat.add].
    rewrite Hf by lia. cbn [rbind]. now rewrite qvalue_S. }
  apply G; [lia|]. clear G. intros v i Hi. unfold rget. rewrite (nth_error_nth' st 0) by lia. cbn [rbind].
  destruct (qeqb_spec (nth i st 0) 0) as [Z0|_].
  { rewrite Z0. f_equal. ring. }
  rewrite (Rl i Hi), (Rs i Hi). cbn [rbind].
  destruct (nth_error (qm_adj m) i) as [a|] eqn:Ea; [|apply nth_error_None in Ea; lia]. cbn [rbind].
  destruct (Rq i a Ea) as [[S L R C] H]. rewrite C. pose proof (small_le i (nb_nbr a)) as SL.
  destruct (Nat.ltb_spec (length (nb_nbr a)) (small i (nb_nbr a))); [lia|].
  rewrite plus_first by auto. rewrite (plus_nbrs_ok st n).
  - cbn [rbind]. f_equal. f_equal. f_equal. f_equal. rewrite <- (sumn_cut n i) by lia. apply sumn_ext. intros j Hj.
    rewrite alook_firstn2, alook_firstn by auto. rewrite firstn_small by auto.
    destruct (in_dec Nat.eq_dec j (filter (fun w => (w <? i)%nat) (nb_nbr a))) as [I|I].
    + apply filter_In in I. destruct I as [I I']. rewrite I'. apply Nat.ltb_lt in I'. rewrite H by (auto; lia). reflexivity.
    + destruct (Nat.ltb_spec j i) as [Lj|Lj]; [|ring]. rewrite <- H by (auto; lia). rewrite alook_none; [reflexivity|].
      intros I2. apply I. apply filter_In. split; [exact I2|]. now apply Nat.ltb_lt.
  - rewrite !firstn_length. lia.
  - rewrite firstn_small by auto. clear -S. induction S as [|x l S IH F]; cbn [filter]; [constructor|].
    destruct (x <? i)%nat; [|exact IH]. constructor; [exact IH|]. rewrite Forall_forall in *. intros y I. apply filter_In in I. now apply F.
  - rewrite firstn_small by auto. rewrite Forall_forall in *. intros y I. apply filter_In in I. now apply R.
  - exact E.
Qed.

(** * The node *)
Definition undo (eff : list (nat * Qc)) (st : list Qc) : list Qc := fold_left (fun st c => lset (fst c) (snd c) st) eff st.
Lemma undo_swap eff : forall i x y st, lset i x (undo eff (lset i y st)) = lset i x (undo eff st).
Proof.
  unfold undo. induction eff as [|[j c] eff IH]; intros i x y st; cbn [fold_left fst snd]; [apply lset_lset|].
  destruct (Nat.eq_dec j i) as [-> |N].
  - now rewrite lset_lset.
  - rewrite lset_comm by auto. apply IH.
Qed.

Lemma nth_lset_upd (l : list Qc) i v j : (j < length l)%nat -> nth j (lset i v l) 0 = upd (fun k => nth k l 0) i v j.
Proof.
  intros H. unfold upd. apply nth_error_nth. rewrite nth_error_lset, (Nat.eqb_sym i j).
  destruct (Nat.eqb_spec j i) as [-> |]; cbn [andb].
  - now rewrite (proj2 (Nat.ltb_lt _ _)) by auto.
  - now apply nth_error_nth'.
Qed.

Record qinv (n : nat) (b : biases) (l cur : list Qc) (v0 : Qc) (done : list nat) (d : qdata) : Prop := {
  qi_old : qd_old d = v0;
  qi_val : qd_val d = qvalue n b (fun j => nth j (qd_prev d) 0);
  qi_len : length (qd_prev d) = n;
  qi_two : forall i, nth_error (qd_prev d) i = nth_error cur i \/ nth_error (qd_prev d) i = nth_error l i;
  qi_done : forall i, In i done -> nth_error (qd_prev d) i = nth_error cur i;
  qi_undo : undo (qd_eff d) (qd_prev d) = l }.

Lemma qn_step_ok m n b l cur v0 done d u : rep m n b -> (forall i j, b_quad b i j = b_quad b j i) ->
  length cur = n -> (uidx u < n)%nat ->
  qinv n b l cur v0 done d -> exists d', qn_step m cur d u = Ok d' /\ qinv n b l cur v0 (done ++ [uidx u]) d'.
Proof.
  intros R S E Hu I. pose proof I as [Io Iv Il It Id Iu]. set (i := uidx u) in *. unfold qn_step, rget. fold i.
  rewrite (nth_error_nth' cur 0) by lia. cbn [rbind]. rewrite (nth_error_nth' (qd_prev d) 0) by lia. cbn [rbind].
  destruct (qeqb_spec (nth i cur 0) (nth i (qd_prev d) 0)) as [Q|Q].
  - exists d. split; [reflexivity|]. constructor; auto. intros j J. apply in_app_or in J. destruct J as [J|[<-|[]]]; auto.
    rewrite (nth_error_nth' (qd_prev d) 0), (nth_error_nth' cur 0) by lia. now rewrite Q.
  - rewrite (get_quad_ok m n b i i R Hu Hu). cbn [rbind]. rewrite (eff_ok m n b i _ R Hu Il). cbn [rbind].
    eexists. split; [reflexivity|].
    assert (Li : nth_error l i = Some (nth i (qd_prev d) 0)).
    { destruct (It i) as [H|H].
      - rewrite (nth_error_nth' (qd_prev d) 0), (nth_error_nth' cur 0) in H by lia. congruence.
      - rewrite <- H. apply nth_error_nth'. lia. }
    constructor; cbn [qd_old qd_val qd_prev qd_eff]; auto.
    + rewrite (qvalue_ext n b (fun j => nth j (lset i (nth i cur 0) (qd_prev d)) 0) (upd (fun k => nth k (qd_prev d) 0) i (nth i cur 0))).
      2:{ intros j Hj. apply nth_lset_upd. lia. }
      rewrite qvalue_step by auto. rewrite Iv. reflexivity.
    + now rewrite lset_length.
    + intros j. rewrite nth_error_lset. destruct (Nat.eqb_spec i j) as [<-|]; cbn [andb]; auto.
      rewrite (proj2 (Nat.ltb_lt _ _)) by lia. left. symmetry. apply nth_error_nth'. lia.
    + intros j J. rewrite nth_error_lset. destruct (Nat.eqb_spec i j) as [<-|N]; cbn [andb].
      * rewrite (proj2 (Nat.ltb_lt _ _)) by lia. symmetry. apply nth_error_nth'. lia.
      * apply in_app_or in J. destruct J as [J|[J|[]]]; [auto|congruence].
    + unfold undo. rewrite fold_left_app. cbn [fold_left fst snd]. fold (undo (qd_eff d) (lset i (nth i cur 0) (qd_prev d))).
      rewrite undo_swap, Iu. now apply lset_same.
Qed.

Lemma qn_loop_ok m n b l cur v0 us : rep m n b -> (forall i j, b_quad b i j = b_quad b j i) -> length cur = n ->
  Forall (fun u => uidx u < n)%nat us -> forall done d, qinv n b l cur v0 done d ->
  exists d', rfold (qn_step m cur) d us = Ok d' /\ qinv n b l cur v0 (done ++ map (@uidx Qc) us) d'.
Proof.
  intros R S E F. induction F as [|u us Hu F IH]; intros done d I; [exists d; rewrite app_nil_r; auto|].
  destruct (qn_step_ok m n b l cur v0 done d u R S E Hu I) as (d1 & E1 & I1). cbn [rfold map]. rewrite E1. cbn [rbind].
  destruct (IH _ _ I1) as (d2 & E2 & I2). exists d2. split; [exact E2|]. now rewrite <- app_assoc in I2.
Qed.

Theorem quad_ok m n b : rep m n b -> (forall i j, b_quad b i j = b_quad b j i) -> node_ok qeqb (qn_node m) (q_fun n b).
Proof.
  intros R S. pose proof (rp_n _ _ _ R) as En.
  assert (NF : forall ins v, q_fun n b ins = Some v -> exists l, ins = [l] /\ length l = n /\ v = [qvalue n b (fun i => nth i l 0)]).
  { unfold q_fun. intros [|l [|]] v H; try discriminate. destruct (Nat.eqb_spec (length l) n); [|discriminate].
    injection H as <-. eauto. }
  assert (FN : forall l, length l = n -> q_fun n b [l] = Some [qvalue n b (fun i => nth i l 0)]).
  { intros l L. unfold q_fun. now rewrite L, Nat.eqb_refl. }
  constructor.
  exists (fun ins (d : qdata) => exists l, ins = [l] /\ length l = n /\
     d = QData (qvalue n b (fun i => nth i l 0)) (qvalue n b (fun i => nth i l 0)) l []).
  cbn [qn_node nd_shape nd_pre nd_ST nd_init nd_out nd_prop nd_commit nd_revert]. split; [|split].
  - intros ins v Hf HF. destruct (NF _ _ HF) as (l & -> & L & ->). split; [reflexivity|].
    cbn [map qn_init still pview]. rewrite (compute_ok m n b l R L). cbn [rbind]. eexists. split; [reflexivity|]. exists l. auto.
  - intros ins d (l & -> & L & ->). exists [qvalue n b (fun i => nth i l 0)]. split; [auto|].
    unfold qd_out, still. cbn [qd_old qd_val]. now rewrite qeqb_refl.
  - intros ins d v pins v' (l & -> & L & ->) HF HP _ HF'.
    rewrite FN in HF by auto. injection HF as <-.
    destruct (NF _ _ HF') as (l' & El' & L' & ->).
    destruct pins as [|p [|p1 pins]]; try discriminate. cbn [map] in El'. assert (l' = pview p) by congruence. subst l'.
    cbn [combine] in HP. inversion HP as [|? ? ? ? K HP1]; subst. cbn [fst snd] in K.
    pose proof (po_replay _ _ _ _ K) as RP.
    assert (FC : Forall is_change (pdiff p)).
    { apply (po_fixed _ _ _ _ K). unfold dynamic. destruct (Z.ltb_spec (Z.of_nat (qm_n m)) 0); [lia|reflexivity]. }
    destruct (replay_changes_length qeqb_spec _ _ _ RP FC) as [_ FI]. rewrite L in FI.
    destruct (qn_loop_ok m (qm_n m) b l (pview p) (qvalue (qm_n m) b (fun i => nth i l 0)) (pdiff p) R S L' FI []
       (QData (qvalue (qm_n m) b (fun i => nth i l 0)) (qvalue (qm_n m) b (fun i => nth i l 0)) l [])) as (d & Ed & [Io Iv Il It Id Iu]).
    { constructor; cbn [qd_old qd_val qd_prev qd_eff]; auto. intros i []. }
    assert (Ep : qd_prev d = pview p).
    { apply nth_error_ext. intros i. cbn [app] in Id. destruct (in_dec Nat.eq_dec i (map (@uidx Qc) (pdiff p))) as [J|J]; [auto|].
      destruct (It i) as [H|H]; [exact H|]. rewrite H. symmetry. exact (replay_untouched qeqb_spec _ _ _ _ RP J). }
    rewrite Ep in Iv. cbn [qn_prop]. exists d. split; [exact Ed|]. split; [|split].
    + eexists. split; [reflexivity|]. unfold qd_out. cbn [pview]. rewrite Iv. split; [reflexivity|]. rewrite Io.
      exact (sout_ok qeqb_spec _ _).
    + exists (pview p). unfold qd_commit. rewrite Ep, Iv. auto.
    + eexists. split; [reflexivity|]. exists l. unfold qd_revert. unfold undo in Iu. rewrite Iu, Io. auto.
Qed.
