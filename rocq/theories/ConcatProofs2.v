From Verif Require Import Base SliceModel ShapeModel ShapeSpec ShapeProofs ShapeProps StateDataModel StateDataSpec StateDataProofs Replay
  NodeSpec NodeLib BinaryModel NodeShape BinaryProofs PartialProofs ConcatModel ConcatSpec ConcatProofs.

(** * What the constructor accepts *)
Definition alike (axis : nat) (a b : list Z) : Prop :=
  length a = length b /\ forall i, i <> axis -> nth_error a i = nth_error b i.

Lemma alike_sym axis a b : alike axis a b -> alike axis b a.
Proof. intros [L H]. split; [auto|]. intros i Hi. symmetry. auto. Qed.
Lemma alike_trans axis a b c : alike axis a b -> alike axis b c -> alike axis a c.
Proof. intros [L H] [L' H']. split; [congruence|]. intros i Hi. rewrite H by auto. auto. Qed.
Lemma alike_refl axis a : alike axis a a.
Proof. split; auto. Qed.

Lemma dims_match_spec axis a b : (0 <= axis)%Z -> length a = length b ->
  dims_match axis a b = true <-> forall i, i <> Z.to_nat axis -> nth_error a i = nth_error b i.
Proof.
  intros Ha L. unfold dims_match. rewrite forallb_forall. split.
  - intros H i Hi. destruct (Nat.lt_ge_cases i (length b)) as [C|C].
    + assert (I : In i (seq 0 (length b))) by (apply in_seq; lia). specialize (H i I). apply orb_true_iff in H. destruct H as [H|H]; [lia|].
      apply Z.eqb_eq in H. rewrite (nth_error_nth' a 0%Z), (nth_error_nth' b 0%Z) by lia. now rewrite H.
    + rewrite !(proj2 (nth_error_None _ _)) by lia. reflexivity.
  - intros H i Hi. apply in_seq in Hi. apply orb_true_iff. destruct (Z.eq_dec (Z.of_nat i) axis) as [E|E]; [left; lia|].
    right. apply Z.eqb_eq. assert (Hn : i <> Z.to_nat axis) by lia. specialize (H i Hn).
    rewrite (nth_error_nth' a 0%Z), (nth_error_nth' b 0%Z) in H by lia. congruence.
Qed.

Lemma conc_check_spec axis s0 rest : (0 <= axis)%Z ->
  conc_check axis (s0 :: rest) = true <-> Forall (alike (Z.to_nat axis) s0) rest.
Proof.
  intros Ha. revert s0. induction rest as [|b rest IH]; intros s0; [split; auto|].
  change (conc_check axis (s0 :: b :: rest)) with
    ((length s0 =? length b) && dims_match axis s0 b && conc_check axis (b :: rest)).
  rewrite !andb_true_iff, Nat.eqb_eq, IH. split.
  - intros [[L M] F]. assert (AB : alike (Z.to_nat axis) s0 b) by (split; [auto|]; now apply dims_match_spec).
    constructor; [exact AB|]. eapply Forall_impl; [|exact F]. intros c. apply alike_trans; auto.
  - intros F. inversion F as [|? ? AB F']; subst. destruct AB as [L M].
    split; [split; [auto|now apply dims_match_spec]|]. eapply Forall_impl; [|exact F'].
    intros c. apply alike_trans. apply alike_sym. split; auto.
Qed.

Lemma fold_widths axis rest : forall n, fold_left (fun n s => n + nth axis s 0)%Z rest n = (n + zsum (widths axis rest))%Z.
Proof.
  induction rest as [|s rest IH]; intros n; cbn [fold_left widths map zsum]; [lia|]. rewrite IH. unfold widths. lia.
Qed.

Lemma joined_fun axis shapes out out' : shapes <> [] -> joined axis shapes out -> joined axis shapes out' -> out = out'.
Proof.
  intros N [W J] [W' J']. destruct shapes as [|s t]; [congruence|].
  destruct (J s ltac:(now left)) as [L H]. destruct (J' s ltac:(now left)) as [L' H'].
  apply nth_error_ext. intros i. destruct (Nat.eq_dec i axis) as [->|Ne]; [congruence|]. rewrite H, H' by auto. reflexivity.
Qed.

Lemma conc_new_spec shapes axis out : Forall wf_shape shapes ->
  conc_new shapes axis = Ok out <->
  (0 <= axis)%Z /\ joinable (Z.to_nat axis) shapes /\ Forall (fun s => dynamic s = false) shapes /\
  joined (Z.to_nat axis) shapes out.
Proof.
  intros W. unfold conc_new, conc_shape.
  assert (Dy : existsb (fun s => shape_to_size s <? 0)%Z shapes = false <-> Forall (fun s => dynamic s = false) shapes).
  { clear - W. induction W as [|s t Ws W IH]; [split; auto|]. cbn [existsb]. rewrite orb_false_iff, size_neg, IH by auto.
    split; [intros []; constructor; auto|]. intros F. inversion F; auto. }
  destruct shapes as [|s0 rest]; [cbn [rbind]; split; [discriminate|]; intros (_ & (N & _) & _); congruence|].
  assert (J : (0 <= axis)%Z -> Z.to_nat axis < length s0 -> Forall (alike (Z.to_nat axis) s0) rest ->
     joinable (Z.to_nat axis) (s0 :: rest) /\
     joined (Z.to_nat axis) (s0 :: rest)
       (lset (Z.to_nat axis) (nth (Z.to_nat axis) s0 0 + zsum (widths (Z.to_nat axis) rest))%Z s0)).
  { intros A0 A1 F. assert (F' : forall s, In s (s0 :: rest) -> alike (Z.to_nat axis) s0 s).
    { intros s [<-|I]; [apply alike_refl|]. rewrite Forall_forall in F. auto. }
    split.
    - split; [discriminate|]. intros s t Is It. pose proof (F' s Is) as Es. pose proof (F' t It) as Et.
      split; [destruct Es; lia|]. apply (alike_trans _ _ s0); [now apply alike_sym|auto].
    - split; [rewrite nth_error_lset, Nat.eqb_refl, (proj2 (Nat.ltb_lt _ _)) by lia; reflexivity|].
      intros s Is. destruct (F' s Is) as [L H]. rewrite lset_length. split; [auto|]. intros i Hi.
      rewrite nth_error_lset. destruct (Nat.eqb_spec (Z.to_nat axis) i); [congruence|]. cbn [andb]. auto. }
  split.
  - intros H. destruct (conc_check axis (s0 :: rest)) eqn:C; [|discriminate H]. cbn [negb] in H.
    destruct (Z.leb_spec 0 axis); [|discriminate H]. destruct (Z.ltb_spec axis (Z.of_nat (length s0))); [|discriminate H].
    cbn [andb negb rbind] in H. apply conc_check_spec in C; [|auto]. destruct (J ltac:(auto) ltac:(lia) C) as [Jb Jd].
    destruct (existsb _ _) eqn:X in H; [discriminate H|]. apply Dy in X. rewrite fold_widths in H.
    injection H as <-. auto.
  - intros (A0 & Jb & X & Jd). destruct Jb as [N Jb].
    assert (C : Forall (alike (Z.to_nat axis) s0) rest).
    { apply Forall_forall. intros s I. destruct (Jb s0 s) as (_ & L & H); [now left|now right|]. split; auto. }
    destruct (Jb s0 s0 ltac:(now left) ltac:(now left)) as [A1 _].
    rewrite (proj2 (conc_check_spec axis s0 rest A0) C). cbn [negb].
    rewrite (proj2 (Z.leb_le _ _) A0), (proj2 (Z.ltb_lt axis _)) by lia. cbn [andb negb rbind].
    rewrite (proj2 Dy X). f_equal. rewrite fold_widths.
    apply (joined_fun (Z.to_nat axis) (s0 :: rest)); auto. now apply J.
Qed.

(** * The common part of the shapes *)
Lemma static_dims s : wf_shape s -> dynamic s = false -> Forall (fun d => 0 <= d)%Z s.
Proof.
  intros (T & _ & H) D. destruct s as [|d t]; [constructor|]. cbn [dynamic tl] in *. constructor.
  - apply Z.ltb_ge in D. lia.
  - eapply Forall_impl; [|exact T]. cbn. intros; lia.
Qed.

Lemma alike_split axis s0 s : axis < length s0 -> alike axis s0 s ->
  s = firstn axis s0 ++ nth axis s 0%Z :: skipn (S axis) s0.
Proof.
  intros A1 [L H]. apply nth_error_ext. intros i.
  assert (Lf : length (firstn axis s0) = axis) by (rewrite firstn_length; lia).
  destruct (Nat.lt_trichotomy i axis) as [C|[-> |C]].
  - rewrite nth_error_app1, nth_error_firstn by lia. destruct (Nat.ltb_spec i axis); [|lia].
    symmetry. apply H. lia.
  - rewrite nth_error_app2, Lf, Nat.sub_diag by lia. cbn [nth_error]. apply nth_error_nth'. lia.
  - rewrite nth_error_app2, Lf by lia. destruct (i - axis) as [|k] eqn:E; [lia|]. cbn [nth_error].
    rewrite nth_error_skipn. replace (S axis + k) with i by lia. symmetry. apply H. lia.
Qed.

Lemma int_prod_from s : forall acc, (0 <= acc)%Z -> Forall (fun d => 0 < d)%Z s -> (acc * prod s < 2147483648)%Z ->
  fold_left (fun acc d => to_int (acc * d)) s acc = (acc * prod s)%Z.
Proof.
  induction s as [|d s IH]; intros acc H0 F Hb; cbn [fold_left prod] in *; [lia|]. inversion F; subst.
  pose proof (prod_pos s H3) as Pp.
  assert (E : to_int (acc * d) = (acc * d)%Z).
  { unfold to_int. rewrite Z.mod_small by nia. destruct (Z.ltb_spec (acc * d) 2147483648); nia. }
  rewrite E, IH; auto; nia.
Qed.

Record frame (axis : nat) (shapes : list (list Z)) (out s1 s2 : list Z) (A B : nat) (ds : list nat) : Prop := {
  fr_shapes : shapes = map (mk s1 s2) ds; fr_out : out = mk s1 s2 (nsum ds);
  fr_axis : length s1 = axis; fr_s2 : Forall (fun d => 0 < d)%Z s2; fr_s1 : Forall (fun d => 0 < d)%Z (tl s1);
  fr_A : prod s1 = Z.of_nat A; fr_B : prod s2 = Z.of_nat B }.

Lemma frame_ex axis shapes out : Forall wf_shape shapes -> joinable axis shapes ->
  Forall (fun s => dynamic s = false) shapes -> joined axis shapes out ->
  exists s1 s2 A B ds, frame axis shapes out s1 s2 A B ds.
Proof.
  intros W [N Jb] St Jd. destruct shapes as [|s0 rest] eqn:Es; [congruence|]. rewrite <- Es in *.
  assert (I0 : In s0 shapes) by (rewrite Es; now left).
  destruct (Jb s0 s0 I0 I0) as [A1 _]. set (s1 := firstn axis s0). set (s2 := skipn (S axis) s0).
  assert (Sp : forall s, In s shapes -> s = s1 ++ nth axis s 0%Z :: s2).
  { intros s I. apply alike_split; auto. destruct (Jb s0 s I0 I) as (_ & L & H). split; auto. }
  assert (D0 : forall s, In s shapes -> Forall (fun d => 0 <= d)%Z s).
  { intros s I. rewrite Forall_forall in W, St. apply static_dims; auto. }
  assert (Lf : length s1 = axis) by (unfold s1; rewrite firstn_length; lia).
  assert (P12 : Forall (fun d => 0 <= d)%Z s1 /\ Forall (fun d => 0 < d)%Z (tl s1) /\ Forall (fun d => 0 < d)%Z s2).
  { pose proof (D0 s0 I0) as Dn. rewrite (Sp s0 I0) in Dn. apply Forall_app in Dn. split; [tauto|].
    rewrite Forall_forall in W. destruct (W s0 I0) as [T _]. rewrite (Sp s0 I0) in T. destruct s1 as [|e t]; cbn [app tl] in *.
    - split; [constructor|exact T].
    - apply Forall_app in T. destruct T as [T1 T2]. inversion T2; auto. }
  destruct P12 as (Pn & P1 & P2).
  set (ds := map (fun s => Z.to_nat (nth axis s 0%Z)) shapes).
  assert (Pos : forall s, In s shapes -> (0 <= nth axis s 0)%Z).
  { intros s I. pose proof (D0 s I) as Dn. rewrite Forall_forall in Dn. apply Dn. apply nth_In.
    destruct (Jb s s0 I I0) as [X _]. exact X. }
  assert (Sm : Z.of_nat (nsum ds) = zsum (widths axis shapes)).
  { unfold ds, widths. clear - Pos. induction shapes as [|s t IH]; [reflexivity|]. cbn [map fold_right zsum].
    rewrite Nat2Z.inj_add, IH by (intros; apply Pos; now right). rewrite Z2Nat.id by (apply Pos; now left). reflexivity. }
  exists s1, s2, (Z.to_nat (prod s1)), (Z.to_nat (prod s2)), ds. constructor; auto.
  - unfold ds, mk. rewrite map_map. rewrite <- (map_id shapes) at 1. apply map_ext_in. intros s I.
    rewrite Z2Nat.id by auto. now apply Sp.
  - destruct Jd as [Wd Jd]. destruct (Jd s0 I0) as [Lo Ho].
    rewrite (alike_split axis s0 out A1) by (split; [auto|intros i Hi; symmetry; auto]). unfold mk. f_equal. f_equal.
    rewrite (nth_error_nth out axis 0%Z Wd). now symmetry.
  - rewrite Z2Nat.id; [reflexivity|]. clear - Pn. induction Pn; cbn [prod]; lia.
  - rewrite Z2Nat.id; [reflexivity|]. pose proof (prod_pos _ P2). lia.
Qed.

Section Frame.
Context {V : Type}.
Variables (axis : nat) (shapes : list (list Z)) (out s1 s2 : list Z) (A B : nat) (ds : list nat).
Hypothesis Fr : frame axis shapes out s1 s2 A B ds.
Notation D := (nsum ds).

Lemma mk_prod d : prod (mk s1 s2 d) = Z.of_nat (A * d * B).
Proof. destruct Fr. unfold mk. rewrite prod_app. cbn [prod]. rewrite fr_A0, fr_B0. lia. Qed.

Lemma mk_fits (l : list V) d : fits (mk s1 s2 d) l <-> length l = A * d * B.
Proof.
  unfold fits, fits_len. assert (X : dynamic (mk s1 s2 d) = false \/ A * d * B = 0 /\ dynamic (mk s1 s2 d) = true).
  { unfold mk. destruct Fr. destruct s1 as [|e t]; cbn [app dynamic]; [left; lia|].
    cbn [prod tl] in *. pose proof (prod_pos _ fr_s4). left. nia. }
  destruct X as [X|[X X']].
  - rewrite X, mk_prod. lia.
  - exfalso. revert X'. unfold mk. destruct Fr. destruct s1 as [|e t]; cbn [app dynamic]; [lia|].
    cbn [prod tl] in *. pose proof (prod_pos _ fr_s4). nia.
Qed.


Lemma starts_good : Forall wf_shape shapes -> forall t S st, incl t ds -> (A = 0 \/ st = Z.of_nat (S * B)) ->
  starts_ok A B S t (conc_starts axis st (map (mk s1 s2) t)).
Proof.
  intros W. induction t as [|d t IH]; intros S st I Hst; cbn [map conc_starts starts_ok]; [auto|].
  assert (Id : In d ds) by (apply I; now left).
  split; [destruct Hst as [-> |Hst]; [left; lia|now right]|]. apply IH; [intros x Hx; apply I; now right|].
  destruct Hst as [Z| ->]; [now left|]. destruct (Nat.eq_dec A 0) as [|NA]; [now left|]. right.
  assert (E : skipn axis (mk s1 s2 d) = Z.of_nat d :: s2).
  { destruct Fr. unfold mk. rewrite <- fr_axis0, skipn_app, skipn_all, Nat.sub_diag. reflexivity. }
  rewrite E. unfold int_prod.
  assert (Wd : wf_shape (mk s1 s2 d)).
  { destruct Fr. rewrite Forall_forall in W. apply W. rewrite fr_shapes0. now apply in_map. }
  destruct Wd as (_ & Bd & _). rewrite mk_prod in Bd.
  destruct Fr. pose proof (prod_pos _ fr_s3) as Pp. rewrite fr_B0 in Pp. cbn [fold_left].
  assert (Ed : to_int (1 * Z.of_nat d) = Z.of_nat d).
  { unfold to_int. rewrite Z.mul_1_l, Z.mod_small by nia. destruct (Z.ltb_spec (Z.of_nat d) 2147483648); nia. }
  rewrite Ed, int_prod_from; auto; [|lia|rewrite fr_B0; nia]. rewrite fr_B0. lia.
Qed.

Lemma widths_sum i : zsum (widths axis (firstn i shapes)) = Z.of_nat (nsum (firstn i ds)).
Proof.
  destruct Fr. rewrite fr_shapes0, firstn_map. unfold widths. rewrite map_map.
  assert (E : forall l, zsum (map (fun x => nth axis (mk s1 s2 x) 0%Z) l) = Z.of_nat (nsum l)).
  { induction l as [|d l IH]; cbn [map zsum fold_right]; [reflexivity|]. rewrite IH. unfold mk at 1.
    rewrite app_nth2, fr_axis0, Nat.sub_diag by lia. cbn [nth]. lia. }
  apply E.
Qed.

(** A moved multi-index. *)
Lemma shift_rank d S idx : in_range (mk s1 s2 d) idx -> S + d <= D ->
  rank (mk s1 s2 d) idx = Z.of_nat (Z.to_nat (rank (mk s1 s2 d) idx)) /\
  Z.to_nat (rank (mk s1 s2 d) idx) < A * d * B /\
  rank out (shift axis (Z.of_nat S) idx) = Z.of_nat (pos D B d S (Z.to_nat (rank (mk s1 s2 d) idx))).
Proof.
  intros R HS. pose proof (rank_bounds _ _ R) as Bd. rewrite mk_prod in Bd. split; [lia|]. split; [lia|].
  set (k := Z.to_nat (rank (mk s1 s2 d) idx)). assert (Ek : Z.of_nat k = rank (mk s1 s2 d) idx) by lia.
  unfold mk in R, Ek. destruct (in_range_split _ _ _ R) as (i1 & i2' & -> & R1 & R2').
  inversion R2' as [|x j y i2 Hj R2]; subst x y i2'. pose proof (in_range_len _ _ R1) as L1. pose proof (in_range_len _ _ R2) as L2.
  destruct Fr. assert (Es : shift axis (Z.of_nat S) (i1 ++ j :: i2) = i1 ++ (j + Z.of_nat S)%Z :: i2).
  { unfold shift. rewrite app_nth2, <- L1, <- fr_axis0, Nat.sub_diag by lia. cbn [nth]. rewrite fr_axis0.
    rewrite <- fr_axis0, L1. apply lset_mid. }
  rewrite Es, fr_out0. unfold mk. rewrite rank_app, rank_cons in * by (cbn [length]; lia). cbn [prod] in *.
  rewrite fr_B0 in *. pose proof (rank_bounds _ _ R2) as B2. rewrite fr_B0 in B2.
  assert (Bj : (0 <= j * Z.of_nat B + rank s2 i2 < Z.of_nat d * Z.of_nat B)%Z) by nia.
  assert (Q : (Z.of_nat (k / (d * B)) = rank s1 i1)%Z).
  { rewrite Nat2Z.inj_div, Nat2Z.inj_mul, Ek. symmetry. eapply Z.div_unique_pos; [exact Bj|]. lia. }
  assert (M : (Z.of_nat (k mod (d * B)) = j * Z.of_nat B + rank s2 i2)%Z).
  { rewrite Nat2Z.inj_mod, Nat2Z.inj_mul, Ek. symmetry. apply (Z.mod_unique_pos _ _ (rank s1 i1)); [exact Bj|]. lia. }
  unfold pos. rewrite !Nat2Z.inj_add, !Nat2Z.inj_mul, Q, M. lia.
Qed.

Lemma firstn_sum i d : nth_error ds i = Some d -> nsum (firstn i ds) + d <= nsum ds.
Proof.
  clear Fr. revert i. induction ds as [|e t IH]; intros [|i] H; cbn [nth_error firstn fold_right] in *; try discriminate.
  - injection H as ->. lia.
  - specialize (IH i H). lia.
Qed.

Lemma pos_surj d k : k < A * d * B -> exists idx, in_range (mk s1 s2 d) idx /\ rank (mk s1 s2 d) idx = Z.of_nat k.
Proof.
  intros Hk. apply rank_surj; [|rewrite mk_prod; lia]. destruct Fr. unfold mk. apply Forall_app. split.
  - destruct s1 as [|e t]; [constructor|]. cbn [tl prod] in *. constructor; [|auto]. pose proof (prod_pos _ fr_s4). assert (0 < A) by nia. nia.
  - constructor; [nia|auto].
Qed.

Lemma concatenated_goods (ops : list (list V)) v : Forall2 fits shapes ops ->
  concatenated axis shapes out ops v <-> length v = A * D * B /\ goods A D B 0 ds ops v.
Proof.
  intros F. assert (Fl : Forall2 (fun d l => length l = A * d * B) ds ops).
  { pose proof (fr_shapes _ _ _ _ _ _ _ _ Fr) as Es. rewrite Es in F.
    assert (X : forall t (ls : list (list V)), Forall2 fits (map (mk s1 s2) t) ls -> Forall2 (fun d l => length l = A * d * B) t ls).
    { induction t as [|d t IH]; intros ls G; inversion G as [|? ? ? ? Ha Hb]; [constructor|].
      constructor; [now apply mk_fits|auto]. }
    now apply X. }
  assert (Ll : length ds = length ops) by (clear - Fl; induction Fl; cbn; auto).
  assert (Nl : forall i d l, nth_error ds i = Some d -> nth_error ops i = Some l -> length l = A * d * B).
  { clear - Fl. induction Fl as [|d l ds ls H Fl IH]; intros [|i] e m E1 E2; cbn [nth_error] in *; try discriminate; [congruence|eauto]. }
  assert (Pl : prod out = Z.of_nat (A * D * B)) by (pose proof (mk_prod D) as X; destruct Fr; now rewrite fr_out0).
  unfold concatenated. rewrite Pl. split.
  - intros [L H]. split; [lia|]. apply nth_goods; [exact Ll|]. intros i d l Ed El. cbn [Nat.add].
    split; [eauto|]. intros k Hk. rewrite (Nl i d l Ed El) in Hk.
    destruct (pos_surj d k Hk) as (idx & R & E). pose proof (firstn_sum i d Ed) as HS.
    assert (Es : nth_error shapes i = Some (mk s1 s2 d)) by (destruct Fr; rewrite fr_shapes0, nth_error_map, Ed; reflexivity).
    specialize (H i _ l idx Es El R). rewrite widths_sum in H.
    destruct (shift_rank d _ idx R HS) as (_ & _ & Er). rewrite Er, E, !Nat2Z.id in H. exact H.
  - intros [L G]. split; [lia|]. intros i s l idx Es El R.
    assert (Ed : exists d, nth_error ds i = Some d /\ s = mk s1 s2 d).
    { destruct Fr. rewrite fr_shapes0, nth_error_map in Es. destruct (nth_error ds i) as [d|]; [|discriminate Es].
      exists d. split; [reflexivity|]. cbn in Es. congruence. }
    destruct Ed as (d & Ed & ->). pose proof (firstn_sum i d Ed) as HS.
    destruct (goods_nth A D B ds 0 ops v i d l G Ed El) as [Lg Gk].
    destruct (shift_rank d _ idx R HS) as (_ & Hk & Er). rewrite widths_sum, Er, Nat2Z.id.
    cbn [Nat.add] in Gk. apply Gk. lia.
Qed.
End Frame.

Lemma frame_wf axis shapes out s1 s2 A B ds : frame axis shapes out s1 s2 A B ds -> Forall wf_shape shapes ->
  Forall (fun s => dynamic s = false) shapes -> joinable axis shapes -> (prod out < 2147483648)%Z ->
  wf_shape out /\ dynamic out = false.
Proof.
  intros [Es Eo _ P2 P1 _ _] W St [N _] Hb. destruct ds as [|d ds]; [subst shapes; cbn in N; congruence|].
  subst shapes. cbn [map] in W, St. inversion W as [|? ? (T & _ & Hh) _]; subst. inversion St as [|? ? St0 _]; subst.
  unfold wf_shape. unfold mk in *. cbn [fold_right].
  destruct s1 as [|e u]; cbn [app tl dynamic] in *.
  - split; [split; [exact P2|split; [exact Hb|]]|]; lia.
  - split; [split; [|split; [exact Hb|exact Hh]]|exact St0]. apply Forall_app. split; [exact P1|]. constructor; [|exact P2].
    apply Forall_app in T. destruct T as [_ T]. inversion T; subst. lia.
Qed.
