From Verif Require Import Base SliceModel ShapeModel StateDataModel NodeSpec NodeLib BinaryModel Num QuadModel QuadSpec BinaryProofs.
From Coq Require Import Sorting.Sorted.

(** * Sorted adjacency lists *)
Fixpoint alook (ns : list nat) (bs : list Qc) (v : nat) : Qc :=
  match ns, bs with n :: ns', b :: bs' => if n =? v then b else alook ns' bs' v | _, _ => 0%Qc end.

Notation srt := (StronglySorted lt).
Definition small (u : nat) (l : list nat) : nat := length (filter (fun w => w <? u) l).
Record nb_ok (n u : nat) (a : nbhd) : Prop := {
  nb_s : srt (nb_nbr a); nb_l : length (nb_bias a) = length (nb_nbr a);
  nb_r : Forall (fun w => w < n /\ w <> u) (nb_nbr a); nb_c : nb_small a = small u (nb_nbr a) }.

Lemma srt_app p q : srt (p ++ q) <-> srt p /\ srt q /\ forall x y, In x p -> In y q -> x < y.
Proof.
  induction p as [|x p IH]; cbn [app].
  - split; [intros H; split; [constructor|]; split; [exact H|intros ? ? []]|tauto].
  - split.
    + intros H. inversion H as [|? ? H1 H2]; subst. apply IH in H1. destruct H1 as (A & B & C).
      apply Forall_app in H2. destruct H2 as [D E]. rewrite Forall_forall in E.
      split; [constructor; auto|]. split; [exact B|]. intros a b [<-|I] J; auto.
    + intros (A & B & C). inversion A as [|? ? A1 A2]; subst. constructor.
      * apply IH. split; [exact A1|]. split; [exact B|]. intros; apply C; auto. now right.
      * apply Forall_app. split; [exact A2|]. apply Forall_forall. intros y I. apply C; [now left|exact I].
Qed.

Lemma lb_split ns v : srt ns -> exists p q, ns = p ++ q /\ length p = lower_bound ns v /\
  Forall (fun w => w < v) p /\ Forall (fun w => v <= w) q.
Proof.
  induction 1 as [|x t S IH H]; [exists [], []; cbn; auto|]. cbn [lower_bound]. destruct (Nat.ltb_spec x v) as [L|L].
  - destruct IH as (p & q & -> & Lp & Fp & Fq). exists (x :: p), q. cbn [app length]. rewrite Lp. repeat split; auto.
  - exists [], (x :: t). cbn [app length]. repeat split; auto. constructor; auto. eapply Forall_impl; [|exact H]. cbn. intros; lia.
Qed.

Lemma alook_app p bp q bq v : length p = length bp -> ~ In v p -> alook (p ++ q) (bp ++ bq) v = alook q bq v.
Proof.
  revert bp. induction p as [|x p IH]; intros [|b bp] L N; try discriminate L; cbn [app alook]; auto.
  destruct (Nat.eqb_spec x v); [exfalso; apply N; now left|]. apply IH; [cbn in L; lia|]. intros I. apply N. now right.
Qed.
Lemma alook_app_in p bp q bq v : length p = length bp -> In v p -> alook (p ++ q) (bp ++ bq) v = alook p bp v.
Proof.
  revert bp. induction p as [|x p IH]; intros [|b bp] L I; try discriminate L; [contradiction|]. cbn [app alook].
  destruct (Nat.eqb_spec x v) as [|Ne]; [reflexivity|]. apply IH; [cbn in L; lia|]. destruct I; [congruence|assumption].
Qed.
Lemma alook_none ns bs v : ~ In v ns -> alook ns bs v = 0%Qc.
Proof.
  revert bs. induction ns as [|x ns IH]; intros [|b bs] N; cbn [alook]; auto.
  destruct (Nat.eqb_spec x v); [exfalso; apply N; now left|]. apply IH. intros I. apply N. now right.
Qed.

Lemma split_len {A} (p q : list nat) (bs : list A) : length bs = length (p ++ q) ->
  exists bp bq, bs = bp ++ bq /\ length p = length bp /\ length q = length bq.
Proof.
  intros L. rewrite app_length in L. exists (firstn (length p) bs), (skipn (length p) bs).
  rewrite firstn_skipn, firstn_length, skipn_length. repeat split; lia.
Qed.

Lemma small_app u p q : small u (p ++ q) = small u p + small u q.
Proof. unfold small. now rewrite filter_app, app_length. Qed.
Lemma small_cons u x q : small u (x :: q) = (if x <? u then 1 else 0) + small u q.
Proof. unfold small. cbn [filter]. destruct (x <? u); reflexivity. Qed.
Lemma insert_mid {A} (p q : list A) x k : length p = k -> insert_pos k x (p ++ q) = p ++ x :: q.
Proof.
  intros <-. unfold insert_pos. rewrite firstn_app, firstn_all, Nat.sub_diag, skipn_app, skipn_all, Nat.sub_diag.
  cbn [firstn skipn app]. now rewrite app_nil_r.
Qed.

Lemma asym_ok n u a v f : nb_ok n u a -> u <> v -> v < n ->
  exists a', asym a u v f = Ok a' /\ nb_ok n u a' /\
    (forall w, alook (nb_nbr a') (nb_bias a') w =
       if w =? v then f (alook (nb_nbr a) (nb_bias a) v) else alook (nb_nbr a) (nb_bias a) w) /\
    (forall w, In w (nb_nbr a') <-> In w (nb_nbr a) \/ w = v).
Proof.
  intros [S L R C] Huv Hv. destruct a as [sm ns bs]; cbn [nb_nbr nb_bias nb_small] in *.
  destruct (lb_split ns v S) as (p & q & E & Lp & Fp & Fq). destruct (split_len p q bs) as (bp & bq & Eb & Lbp & Lbq); [congruence|].
  assert (Np : ~ In v p) by (intros I; rewrite Forall_forall in Fp; specialize (Fp v I); lia).
  unfold asym. cbn [nb_nbr nb_bias nb_small]. rewrite <- Lp.
  assert (New : ~ In v q -> exists a',
     Ok (Nbhd (if v <? u then Datatypes.S sm else sm) (insert_pos (length p) v ns) (insert_pos (length p) (f 0%Qc) bs)) = Ok a' /\
     nb_ok n u a' /\
    (forall w, alook (nb_nbr a') (nb_bias a') w = if w =? v then f (alook ns bs v) else alook ns bs w) /\
    (forall w, In w (nb_nbr a') <-> In w ns \/ w = v)).
  { intros Nq. eexists. split; [reflexivity|]. subst ns bs. rewrite (insert_mid p q) by reflexivity.
    rewrite (insert_mid bp bq) by auto. split; [|split].
    - apply srt_app in S. destruct S as (Sp & Sq & Spq). constructor; cbn [nb_nbr nb_bias nb_small].
      + apply srt_app. split; [exact Sp|]. rewrite Forall_forall in Fp, Fq. split.
        * constructor; [exact Sq|]. apply Forall_forall. intros w I. specialize (Fq w I).
          assert (w <> v) by (intros ->; contradiction). lia.
        * intros x y I [<-|J]; auto.
      + rewrite !app_length in *. cbn [length]. lia.
      + apply Forall_app in R. destruct R as [Rp Rq]. apply Forall_app. split; [exact Rp|]. constructor; auto.
      + rewrite C, !small_app, small_cons. destruct (v <? u); lia.
    - cbn [nb_nbr nb_bias]. intros w. destruct (Nat.eqb_spec w v) as [-> |Ne].
      + rewrite (alook_app p bp) by auto. cbn [alook]. rewrite Nat.eqb_refl.
        rewrite alook_none; [reflexivity|]. intros I. apply in_app_or in I. tauto.
      + destruct (in_dec Nat.eq_dec w p) as [I|N].
        * rewrite !alook_app_in by auto. reflexivity.
        * rewrite !(alook_app p bp) by auto. cbn [alook]. destruct (Nat.eqb_spec v w); [congruence|reflexivity].
    - cbn [nb_nbr]. intros w. rewrite !in_app_iff. cbn [In]. intuition. }
  destruct (nth_error ns (length p)) as [w|] eqn:En.
  - subst ns. rewrite nth_error_app2, Nat.sub_diag in En by lia. destruct q as [|w' q]; [discriminate|]. injection En as ->.
    destruct (Nat.eqb_spec w v) as [-> |Ne].
    + subst bs. destruct bq as [|b bq]; [discriminate Lbq|]. unfold rget.
      rewrite nth_error_app2, <- Lbp, Nat.sub_diag by lia. cbn [nth_error rbind].
      eexists. split; [reflexivity|]. rewrite Lbp, lset_mid. split; [|split]; cbn [nb_nbr nb_bias nb_small].
      * constructor; cbn [nb_nbr nb_bias nb_small]; auto. rewrite !app_length in *. cbn [length] in *. lia.
      * intros w. rewrite (alook_app p bp _ _ v) by auto. cbn [alook]. rewrite Nat.eqb_refl.
        destruct (Nat.eqb_spec w v) as [-> |Nw].
        -- rewrite alook_app by auto. cbn [alook]. now rewrite Nat.eqb_refl.
        -- destruct (in_dec Nat.eq_dec w p) as [I|N].
           ++ now rewrite !alook_app_in by auto.
           ++ rewrite !(alook_app p bp) by auto. cbn [alook]. destruct (Nat.eqb_spec v w); [congruence|reflexivity].
      * intros w. rewrite !in_app_iff. cbn [In]. intuition.
    + apply New. intros I. apply srt_app in S. destruct S as (_ & Sq & _). inversion Sq as [|? ? _ Fw]; subst.
      rewrite Forall_forall in Fw, Fq. destruct I as [|I]; [congruence|]. specialize (Fw v I). specialize (Fq w ltac:(now left)). lia.
  - apply New. intros I. subst ns. apply nth_error_None in En. rewrite app_length in En. destruct q; [contradiction|cbn in En; lia].
Qed.

Lemma look_ok n u a v : nb_ok n u a ->
  (let k := lower_bound (nb_nbr a) v in
   match nth_error (nb_nbr a) k with
   | Some w => if w =? v then rget (nb_bias a) k else Ok 0%Qc
   | None => Ok 0%Qc
   end) = Ok (alook (nb_nbr a) (nb_bias a) v).
Proof.
  intros [S L R C]. destruct a as [sm ns bs]; cbn [nb_nbr nb_bias nb_small] in *. cbv zeta.
  destruct (lb_split ns v S) as (p & q & E & Lp & Fp & Fq). destruct (split_len p q bs) as (bp & bq & Eb & Lbp & Lbq); [congruence|].
  assert (Np : ~ In v p) by (intros I; rewrite Forall_forall in Fp; specialize (Fp v I); lia).
  rewrite <- Lp. subst ns bs. rewrite alook_app by auto.
  rewrite nth_error_app2, Nat.sub_diag by lia. destruct q as [|w q]; [reflexivity|]. destruct bq as [|b bq]; [discriminate Lbq|].
  cbn [nth_error alook]. destruct (Nat.eqb_spec w v) as [-> |Ne].
  - unfold rget. rewrite nth_error_app2, <- Lbp, Nat.sub_diag by lia. reflexivity.
  - rewrite alook_none; [reflexivity|]. intros I. apply srt_app in S. destruct S as (_ & Sq & _). inversion Sq as [|? ? _ Fw]; subst.
    rewrite Forall_forall in Fw, Fq. specialize (Fw v I). specialize (Fq w ltac:(now left)). lia.
Qed.

(** * The whole table *)
Record rep (m : qmodel) (n : nat) (b : biases) : Prop := {
  rp_n : qm_n m = n; rp_lin : length (qm_lin m) = n; rp_sq : length (qm_sq m) = n; rp_adj : length (qm_adj m) = n;
  rp_l : forall i, i < n -> nth_error (qm_lin m) i = Some (b_lin b i);
  rp_s : forall i, i < n -> nth_error (qm_sq m) i = Some (b_quad b i i);
  rp_q : forall u a, nth_error (qm_adj m) u = Some a -> nb_ok n u a /\
           forall v, v < n -> v <> u -> alook (nb_nbr a) (nb_bias a) v = b_quad b u v;
  rp_m : forall u v a c, nth_error (qm_adj m) u = Some a -> nth_error (qm_adj m) v = Some c ->
           In v (nb_nbr a) -> In u (nb_nbr c) }.


Lemma upd_adj_ok m n u v f a : length (qm_adj m) = n -> nth_error (qm_adj m) u = Some a -> nb_ok n u a -> u <> v -> v < n ->
  exists a', upd_adj m u v f = Ok (QModel (qm_n m) (qm_lin m) (qm_sq m) (lset u a' (qm_adj m))) /\ nb_ok n u a' /\
    (forall w, alook (nb_nbr a') (nb_bias a') w =
       if w =? v then f (alook (nb_nbr a) (nb_bias a) v) else alook (nb_nbr a) (nb_bias a) w) /\
    (forall w, In w (nb_nbr a') <-> In w (nb_nbr a) \/ w = v).
Proof.
  intros L E K N Hv. destruct (asym_ok n u a v f K N Hv) as (a' & Ea & H). exists a'.
  unfold upd_adj, rget. rewrite E. cbn [rbind]. rewrite Ea. cbn [rbind]. split; [reflexivity|exact H].
Qed.

Lemma same_pair_no u v i : u <> v -> same_pair u v i i = false.
Proof. intros N. unfold same_pair. destruct (Nat.eqb_spec u i), (Nat.eqb_spec v i); cbn; congruence. Qed.

Lemma upd_quad_rep m n b u v f : rep m n b -> u < n -> v < n ->
  exists m', upd_quadratic m u v f = Ok m' /\ rep m' n (at_quad u v f b).
Proof.
  intros [En Ll Ls La Rl Rs Rq Rm] Hu Hv. unfold upd_quadratic. rewrite En.
  rewrite (proj2 (Nat.leb_gt n u)), (proj2 (Nat.leb_gt n v)) by lia. cbn [orb].
  destruct (Nat.eqb_spec u v) as [<-|N].
  - unfold rget. rewrite (Rs u Hu). cbn [rbind]. eexists. split; [reflexivity|].
    constructor; cbn [qm_n qm_lin qm_sq qm_adj at_quad b_lin b_quad]; auto; rewrite ?lset_length; auto.
    + intros i Hi. rewrite nth_error_lset. unfold same_pair. rewrite Bool.orb_diag, Bool.andb_diag.
      destruct (Nat.eqb_spec u i) as [-> |]; cbn [andb]; [|auto]. rewrite (proj2 (Nat.ltb_lt _ _)) by lia. reflexivity.
    + intros w a Ea. destruct (Rq w a Ea) as [K H]. split; [exact K|]. intros x Hx Nx. rewrite H by auto.
      unfold same_pair. destruct (Nat.eqb_spec u w), (Nat.eqb_spec u x); cbn; congruence.
  - destruct (nth_error (qm_adj m) u) as [a|] eqn:Ea; [|apply nth_error_None in Ea; lia].
    destruct (nth_error (qm_adj m) v) as [c|] eqn:Ec; [|apply nth_error_None in Ec; lia].
    destruct (Rq u a Ea) as [Ka Ha]. destruct (Rq v c Ec) as [Kc Hc].
    destruct (upd_adj_ok m n u v f a La Ea Ka N Hv) as (a' & E1 & Ka' & Ha' & Ia). rewrite E1. cbn [rbind].
    destruct (upd_adj_ok (QModel (qm_n m) (qm_lin m) (qm_sq m) (lset u a' (qm_adj m))) n v u f c) as (c' & E2 & Kc' & Hc' & Ic); auto.
    { cbn [qm_adj]. now rewrite lset_length. }
    { cbn [qm_adj]. rewrite nth_error_lset. destruct (Nat.eqb_spec u v); [congruence|exact Ec]. }
    rewrite E2. eexists. split; [reflexivity|]. cbn [qm_n qm_lin qm_sq qm_adj].
    assert (Nth : forall w x, nth_error (lset v c' (lset u a' (qm_adj m))) w = Some x ->
       (w = v /\ x = c') \/ (w = u /\ x = a') \/ (w <> u /\ w <> v /\ nth_error (qm_adj m) w = Some x)).
    { intros w x E. rewrite !nth_error_lset, lset_length, La in E.
      rewrite (proj2 (Nat.ltb_lt v n)), (proj2 (Nat.ltb_lt u n)), !Bool.andb_true_r in E by lia.
      destruct (Nat.eqb_spec v w) as [<-|]; [left; split; congruence|].
      destruct (Nat.eqb_spec u w) as [<-|]; [right; left; split; congruence|]. right. right. auto. }
    constructor; cbn [qm_n qm_lin qm_sq qm_adj at_quad b_lin b_quad]; auto; rewrite ?lset_length; auto.
    + intros i Hi. rewrite same_pair_no by auto. auto.
    + intros w x E. destruct (Nth w x E) as [[-> ->]|[[-> ->]|(N1 & N2 & E')]].
      * split; [exact Kc'|]. intros y Hy Ny. rewrite Hc'. unfold same_pair.
        destruct (Nat.eqb_spec y u) as [-> |Nyu].
        -- rewrite !Nat.eqb_refl. destruct (Nat.eqb_spec u v); [congruence|]. cbn [andb orb]. now rewrite Hc by auto.
        -- destruct (Nat.eqb_spec u y); [congruence|]. destruct (Nat.eqb_spec u v); [congruence|]. cbn [andb orb]. now apply Hc.
      * split; [exact Ka'|]. intros y Hy Ny. rewrite Ha'. unfold same_pair. rewrite Nat.eqb_refl. cbn [andb].
        destruct (Nat.eqb_spec y v) as [-> |Nyv].
        -- rewrite Nat.eqb_refl. cbn [orb]. now rewrite Ha by auto.
        -- destruct (Nat.eqb_spec v y); [congruence|]. destruct (Nat.eqb_spec v u); [congruence|].
           rewrite Bool.andb_false_r. cbn [orb]. now apply Ha.
      * destruct (Rq w x E') as [K H]. split; [exact K|]. intros y Hy Ny. rewrite H by auto. unfold same_pair.
        destruct (Nat.eqb_spec u w); [congruence|]. destruct (Nat.eqb_spec v w); [congruence|]. rewrite Bool.andb_false_r. reflexivity.
    + intros w y x z Ew Ey I.
      destruct (Nth w x Ew) as [[-> ->]|[[-> ->]|(N1 & N2 & Ew')]], (Nth y z Ey) as [[-> ->]|[[-> ->]|(N3 & N4 & Ey')]].
      * destruct Kc'. rewrite Forall_forall in nb_r0. destruct (nb_r0 v I). congruence.
      * apply Ia. now right.
      * apply Ic in I. destruct I as [I|I]; [|congruence]. now apply (Rm v y c z).
      * apply Ic. now right.
      * destruct Ka'. rewrite Forall_forall in nb_r0. destruct (nb_r0 u I). congruence.
      * apply Ia in I. destruct I as [I|I]; [|congruence]. now apply (Rm u y a z).
      * apply Ic. left. now apply (Rm w v x c).
      * apply Ia. left. now apply (Rm w u x a).
      * now apply (Rm w y x z).
Qed.

Lemma upd_lin_rep m n b v f : rep m n b -> v < n -> exists m', upd_linear m v f = Ok m' /\ rep m' n (at_lin v f b).
Proof.
  intros [En Ll Ls La Rl Rs Rq Rm] Hv. unfold upd_linear, rget. rewrite (Rl v Hv). cbn [rbind]. eexists. split; [reflexivity|].
  constructor; cbn [qm_n qm_lin qm_sq qm_adj at_lin b_lin b_quad]; auto; rewrite ?lset_length; auto.
  intros i Hi. rewrite nth_error_lset, Nat.eqb_sym. destruct (Nat.eqb_spec i v) as [-> |]; cbn [andb]; [|auto].
  rewrite (proj2 (Nat.ltb_lt _ _)) by lia. reflexivity.
Qed.

Lemma rep_ext m n b c : rep m n b -> (forall i, i < n -> b_lin b i = b_lin c i) ->
  (forall i j, i < n -> j < n -> b_quad b i j = b_quad c i j) -> rep m n c.
Proof.
  intros [En Ll Ls La Rl Rs Rq Rm] H1 H2. constructor; auto.
  - intros i Hi. rewrite <- H1 by auto. auto.
  - intros i Hi. rewrite <- H2 by auto. auto.
  - intros u a E. destruct (Rq u a E) as [K H]. split; [exact K|]. intros v Hv Nv. rewrite <- H2; auto.
    apply nth_error_lt in E. lia.
Qed.

(** Running a model operation. *)
Definition run_qop (m : qmodel) (o : qop) : res qmodel :=
  match o with
  | SetLin v b => set_linear m v b | AddLin v b => add_linear m v b
  | SetQuad u v b => set_quadratic m u v b | AddQuad u v b => add_quadratic m u v b
  | AddLins l => add_linears m l | AddSquares l => add_squares m l | AddQuads l => add_quadratics m l
  end.

Lemma add_lins_loop l k : forall m n b, rep m n b -> k <= n -> n <= length l ->
  exists m', rfold (fun m i => rbind (rget l i) (fun b => add_linear m i b)) m (seq 0 k) = Ok m' /\
    rep m' n (Biases (fun i => if i <? k then (b_lin b i + nth i l 0)%Qc else b_lin b i) (b_quad b)).
Proof.
  induction k as [|k IH]; intros m n b R Hk Hl.
  - exists m. split; [reflexivity|]. apply (rep_ext m n b); auto.
  - rewrite seq_S, BinaryProofs.rfold_app. destruct (IH m n b R ltac:(lia) Hl) as (m1 & E1 & R1). rewrite E1. cbn [rbind rfold Nat.add].
    unfold rget at 1. rewrite (nth_error_nth' l 0%Qc) by lia. cbn [rbind].
    destruct (upd_lin_rep m1 n _ k (fun o => (o + nth k l 0)%Qc) R1 ltac:(lia)) as (m2 & E2 & R2).
    unfold add_linear. rewrite E2. cbn [rbind]. exists m2. split; [reflexivity|]. apply (rep_ext m2 n _ _ R2); [|auto].
    intros i Hi. cbn [at_lin b_lin]. destruct (Nat.eqb_spec i k) as [-> |].
    + destruct (Nat.ltb_spec k k), (Nat.ltb_spec k (S k)); try lia. reflexivity.
    + destruct (Nat.ltb_spec i k), (Nat.ltb_spec i (S k)); try lia; reflexivity.
Qed.

Lemma add_sqs_loop l k : forall m n b, rep m n b -> k <= n -> n <= length l ->
  exists m', rfold (fun m i => rbind (rget l i) (fun b => rbind (rget (qm_sq m) i) (fun o =>
           Ok (QModel (qm_n m) (qm_lin m) (lset i (o + b)%Qc (qm_sq m)) (qm_adj m))))) m (seq 0 k) = Ok m' /\
    rep m' n (Biases (b_lin b) (fun i j => if ((i =? j) && (i <? k)) then (b_quad b i j + nth i l 0)%Qc else b_quad b i j)).
Proof.
  induction k as [|k IH]; intros m n b R Hk Hl.
  - exists m. split; [reflexivity|]. apply (rep_ext m n b); auto. intros i j _ _. cbn [b_quad]. now rewrite Bool.andb_false_r.
  - rewrite seq_S, BinaryProofs.rfold_app. destruct (IH m n b R ltac:(lia) Hl) as (m1 & E1 & R1). rewrite E1. cbn [rbind rfold Nat.add].
    unfold rget at 1. rewrite (nth_error_nth' l 0%Qc) by lia. cbn [rbind].
    destruct R1 as [En Ll Ls La Rl Rs Rq Rm]. unfold rget. rewrite (Rs k ltac:(lia)). cbn [rbind].
    eexists. split; [reflexivity|].
    constructor; cbn [qm_n qm_lin qm_sq qm_adj b_lin b_quad] in *; auto; rewrite ?lset_length; auto.
    + intros i Hi. rewrite nth_error_lset, !Nat.eqb_refl. cbn [andb]. destruct (Nat.eqb_spec k i) as [-> |]; cbn [andb].
      * rewrite (proj2 (Nat.ltb_lt _ (length (qm_sq m1)))) by lia. destruct (Nat.ltb_spec i i), (Nat.ltb_spec i (S i)); try lia. reflexivity.
      * rewrite Rs by auto. rewrite Nat.eqb_refl. cbn [andb]. destruct (Nat.ltb_spec i k), (Nat.ltb_spec i (S k)); try lia; reflexivity.
    + intros u a E. destruct (Rq u a E) as [K H]. split; [exact K|]. intros v Hv Nv. rewrite H by auto.
      destruct (Nat.eqb_spec u v); [congruence|reflexivity].
Qed.

Lemma add_quads_loop l : forall m n b, rep m n b -> Forall (fun t => fst (fst t) < n /\ snd (fst t) < n) l ->
  exists m', add_quadratics m l = Ok m' /\
    rep m' n (fold_left (fun b t => at_quad (fst (fst t)) (snd (fst t)) (fun o => o + snd t)%Qc b) l b).
Proof.
  induction l as [|t l IH]; intros m n b R F; [exists m; split; [reflexivity|exact R]|].
  inversion F as [|? ? [H1 H2] F']; subst. unfold add_quadratics. cbn [rfold fold_left].
  destruct (upd_quad_rep m n b _ _ (fun o => (o + snd t)%Qc) R H1 H2) as (m1 & E1 & R1).
  unfold add_quadratic. rewrite E1. cbn [rbind]. now apply IH.
Qed.

Lemma run_qop_ok m n b o : rep m n b -> qop_in n o -> exists m', run_qop m o = Ok m' /\ rep m' n (spec_qop n b o).
Proof.
  intros R H. destruct o; cbn [qop_in run_qop spec_qop] in *.
  - now apply upd_lin_rep.
  - now apply upd_lin_rep.
  - now apply upd_quad_rep.
  - now apply upd_quad_rep.
  - unfold add_linears. rewrite (rp_n _ _ _ R). now apply add_lins_loop.
  - unfold add_squares. rewrite (rp_n _ _ _ R). now apply add_sqs_loop.
  - now apply add_quads_loop.
Qed.

Lemma run_qops_ok os : forall m n b, rep m n b -> Forall (qop_in n) os ->
  exists m', rfold run_qop m os = Ok m' /\ rep m' n (fold_left (spec_qop n) os b).
Proof.
  induction os as [|o os IH]; intros m n b R F; [exists m; split; [reflexivity|exact R]|].
  inversion F as [|? ? H F']; subst. cbn [rfold fold_left]. destruct (run_qop_ok m n b o R H) as (m1 & E & R1).
  rewrite E. cbn [rbind]. now apply IH.
Qed.

Lemma new_rep n m : qm_new n = Ok m -> rep m (Z.to_nat n) no_biases /\ (0 <= n)%Z.
Proof.
  unfold qm_new. destruct (Z.ltb_spec n 0); [discriminate|]. intros E. injection E as <-. split; [|lia].
  constructor; cbn [qm_n qm_lin qm_sq qm_adj no_biases b_lin b_quad]; rewrite ?repeat_length; auto.
  - intros i Hi. rewrite nth_error_repeat. now destruct (Nat.ltb_spec i (Z.to_nat n)); [|lia].
  - intros i Hi. rewrite nth_error_repeat. now destruct (Nat.ltb_spec i (Z.to_nat n)); [|lia].
  - intros u a E. apply nth_error_In, repeat_spec in E. subst a. split.
    + constructor; cbn; auto. constructor.
    + intros v _ _. reflexivity.
  - intros u v a c E _ I. apply nth_error_In, repeat_spec in E. subst a. contradiction I.
Qed.

Lemma get_lin_ok m n b v : rep m n b -> v < n -> get_linear m v = Ok (b_lin b v).
Proof. intros R H. unfold get_linear, rget. now rewrite (rp_l _ _ _ R v H). Qed.
Lemma get_quad_ok m n b u v : rep m n b -> u < n -> v < n -> get_quadratic m u v = Ok (b_quad b u v).
Proof.
  intros [En Ll Ls La Rl Rs Rq Rm] Hu Hv. unfold get_quadratic. rewrite En.
  rewrite (proj2 (Nat.leb_gt n u)), (proj2 (Nat.leb_gt n v)) by lia. cbn [orb].
  destruct (Nat.eqb_spec u v) as [-> |N]; [unfold rget; now rewrite Rs|].
  unfold rget at 1. destruct (nth_error (qm_adj m) u) as [a|] eqn:Ea; [|apply nth_error_None in Ea; lia].
  cbn [rbind]. destruct (Rq u a Ea) as [K H]. etransitivity; [exact (look_ok n u a v K)|]. now rewrite H by auto.
Qed.

Lemma spec_sym n os : forall b, (forall i j, b_quad b i j = b_quad b j i) ->
  forall i j, b_quad (fold_left (spec_qop n) os b) i j = b_quad (fold_left (spec_qop n) os b) j i.
Proof.
  assert (P : forall u v i j, same_pair u v i j = same_pair u v j i).
  { intros. unfold same_pair. apply Bool.orb_comm. }
  assert (Q : forall u v f b, (forall i j, b_quad b i j = b_quad b j i) -> forall i j, b_quad (at_quad u v f b) i j = b_quad (at_quad u v f b) j i).
  { intros u v f b H i j. cbn [at_quad b_quad]. now rewrite P, H. }
  induction os as [|o os IH]; intros b H; cbn [fold_left]; [exact H|]. apply IH. clear IH os.
  destruct o as [v c|v c|u v c|u v c|l|l|l]; cbn [spec_qop]; auto.
  - cbn [b_quad]. intros i j. rewrite (Nat.eqb_sym j i). destruct (Nat.eqb_spec i j) as [-> |]; cbn [andb]; auto.
  - revert b H. induction l as [|t l IH]; intros b H; cbn [fold_left]; [exact H|]. apply IH. now apply Q.
Qed.
