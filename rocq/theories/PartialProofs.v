From Verif Require Import Base SliceModel ShapeModel ShapeSpec ShapeProofs StateDataModel StateDataSpec StateDataProofs Replay
  NodeSpec NodeLib BinaryModel NodeShape BinaryProofs Num NaryModel NarySpec NaryProofs ReduceProofs PartialModel PartialSpec.

(** * Lists and ranks *)
Lemma rank_app s1 i1 s2 i2 : length s1 = length i1 -> length s2 = length i2 ->
  rank (s1 ++ s2) (i1 ++ i2) = (rank s1 i1 * prod s2 + rank s2 i2)%Z.
Proof.
  revert i1. induction s1 as [|d s1 IH]; intros [|i i1] L1 L2; try discriminate L1.
  - cbn [app]. unfold rank at 2. cbn. lia.
  - cbn [app]. cbn in L1. rewrite !rank_cons by (rewrite ?app_length; lia). rewrite IH by lia. rewrite prod_app. lia.
Qed.
Lemma in_range_app s1 i1 s2 i2 : in_range s1 i1 -> in_range s2 i2 -> in_range (s1 ++ s2) (i1 ++ i2).
Proof. intros A B. apply Forall2_app; auto. Qed.
Lemma in_range_split s1 s2 idx : in_range (s1 ++ s2) idx ->
  exists i1 i2, idx = i1 ++ i2 /\ in_range s1 i1 /\ in_range s2 i2.
Proof. intros H. apply Forall2_app_inv_l in H. destruct H as (i1 & i2 & A & B & ->). eauto. Qed.

Lemma split_axis (s : list Z) axis : axis < length s ->
  exists s1 d s2, s = s1 ++ d :: s2 /\ length s1 = axis /\ firstn axis s = s1 /\ skipn (S axis) s = s2 /\
    nth axis s 0%Z = d /\ drop_axis axis s = s1 ++ s2.
Proof.
  intros H. destruct (nth_error s axis) as [d|] eqn:E; [|apply nth_error_None in E; lia].
  destruct (nth_error_split s axis E) as (s1 & s2 & -> & L). exists s1, d, s2.
  assert (F : firstn axis (s1 ++ d :: s2) = s1) by (rewrite <- L; rewrite firstn_app, Nat.sub_diag, firstn_all; cbn; now rewrite app_nil_r).
  assert (K : skipn (S axis) (s1 ++ d :: s2) = s2).
  { rewrite <- L. rewrite skipn_app, skipn_all2 by lia. replace (S (length s1) - length s1) with 1 by lia. reflexivity. }
  repeat split; auto.
  - rewrite <- L, app_nth2, Nat.sub_diag by lia. reflexivity.
  - unfold drop_axis. now rewrite F, K.
Qed.

(** * map_parent_index *)
Lemma quot8 p : Z.quot (8 * p) itemsize = p.
Proof. unfold itemsize. rewrite Z.mul_comm. apply Z.quot_mul. lia. Qed.

Lemma map_after axis s2 : forall i2 cur index, axis < cur -> Forall (fun d => (0 < d)%Z) s2 -> in_range s2 i2 ->
  map_loop axis (shape_to_strides s2) (shape_to_strides s2) cur (rank s2 i2) index = Ok (index + rank s2 i2)%Z.
Proof.
  induction s2 as [|d s2 IH]; intros i2 cur index C P R; inversion R as [|x i y i2' Hi R']; subst.
  - cbn. f_equal. lia.
  - inversion P as [|x y Pd P']; subst x y. pose proof (prod_pos _ P') as Pp.
    rewrite strides_cons, rank_cons by (apply in_range_len; exact R'). cbn [map_loop]. rewrite quot8.
    destruct (Z.eqb_spec (prod s2) 0); [lia|]. destruct (Nat.eqb_spec cur axis); [lia|].
    pose proof (rank_bounds _ _ R') as B.
    rewrite Z.quot_div_nonneg, Z.rem_mod_nonneg by nia.
    rewrite Z.add_comm, Z.div_add, Z.mod_add by lia. rewrite Z.div_small, Z.mod_small by lia.
    rewrite IH by (auto; lia). f_equal. lia.
Qed.

Lemma map_at axis d s2 j i2 index : Forall (fun d => (0 < d)%Z) s2 -> (0 <= j)%Z -> in_range s2 i2 ->
  map_loop axis (shape_to_strides (d :: s2)) (shape_to_strides s2) axis (rank (d :: s2) (j :: i2)) index = Ok (index + rank s2 i2)%Z.
Proof.
  intros P J R. pose proof (prod_pos _ P) as Pp. pose proof (rank_bounds _ _ R) as B.
  rewrite strides_cons, rank_cons by (apply in_range_len; exact R). cbn [map_loop]. rewrite quot8, Nat.eqb_refl.
  destruct (Z.eqb_spec (prod s2) 0); [lia|]. rewrite Z.rem_mod_nonneg by nia.
  rewrite Z.add_comm, Z.mod_add by lia. rewrite Z.mod_small by lia. apply map_after; auto.
Qed.

Lemma map_before axis d s2 j i2 s1 : forall i1 cur index, Forall (fun d => (0 < d)%Z) (s1 ++ d :: s2) ->
  axis - cur = length s1 -> cur <= axis -> in_range s1 i1 -> (0 <= j < d)%Z -> in_range s2 i2 ->
  map_loop axis (shape_to_strides (s1 ++ d :: s2)) (shape_to_strides (s1 ++ s2)) cur (rank (s1 ++ d :: s2) (i1 ++ j :: i2)) index
  = Ok (index + rank (s1 ++ s2) (i1 ++ i2))%Z.
Proof.
  induction s1 as [|e s1 IH]; intros i1 cur index P C C0 R1 J R2; inversion R1 as [|x i y i1' Hi R']; subst; cbn [app] in *.
  - cbn [length] in C. assert (cur = axis) by lia. subst cur. inversion P; subst. apply map_at; auto. lia.
  - inversion P as [|x y Pe P']; subst x y. pose proof (prod_pos _ P') as Pp.
    assert (R3 : in_range (s1 ++ d :: s2) (i1' ++ j :: i2)) by (apply in_range_app; [exact R'|constructor; auto]).
    assert (R4 : in_range (s1 ++ s2) (i1' ++ i2)) by (apply in_range_app; auto).
    pose proof (rank_bounds _ _ R3) as B.
    rewrite !strides_cons, !rank_cons by (apply in_range_len; auto). cbn [map_loop length]. rewrite !quot8.
    destruct (Z.eqb_spec (prod (s1 ++ d :: s2)) 0); [lia|]. cbn [length] in C. destruct (Nat.eqb_spec cur axis); [lia|].
    rewrite Z.quot_div_nonneg, Z.rem_mod_nonneg by nia.
    rewrite (Z.add_comm (i * _)), Z.div_add, Z.mod_add by lia. rewrite Z.div_small, Z.mod_small by lia.
    rewrite Z.add_0_l.
    rewrite IH by (auto; lia). f_equal. lia.
Qed.

(** * Reading along the axis *)
Lemma quot8_div k : (8 | k)%Z -> Z.quot k itemsize = (k / 8)%Z.
Proof. intros [q ->]. rewrite Z.div_mul by lia. unfold itemsize. now rewrite Z.quot_mul. Qed.
Lemma offset_div p i : Forall (fun st => (8 | st)%Z) p -> (8 | offset p i)%Z.
Proof.
  intros H. revert i. induction H as [|st p D H IH]; intros [|x i]; cbn [offset]; try apply Z.divide_0_r.
  apply Z.divide_add_r; [now apply Z.divide_mul_r|apply IH].
Qed.
Lemma offset_app p1 i1 p2 i2 : length p1 = length i1 -> offset (p1 ++ p2) (i1 ++ i2) = (offset p1 i1 + offset p2 i2)%Z.
Proof.
  revert i1. induction p1 as [|a p1 IH]; intros [|i i1] L; try discriminate L; cbn [app offset]; [lia|].
  rewrite IH by (cbn in L; lia). lia.
Qed.

Lemma start_after pst axis i2 : forall pre p2, pst = pre ++ p2 -> axis < length pre -> length p2 = length i2 ->
  Forall (fun st => (8 | st)%Z) p2 ->
  pr_start pst axis (length pre - 1) i2 = (offset p2 i2 / 8)%Z.
Proof.
  induction i2 as [|i i2 IH]; intros pre [|st p2] E C L D; try discriminate L; [reflexivity|].
  inversion D as [|x y D1 D2]; subst x y. cbn [pr_start].
  destruct (Nat.leb_spec axis (length pre - 1)); [|lia]. replace (S (length pre - 1)) with (length pre) by lia.
  rewrite E at 1. rewrite app_nth2, Nat.sub_diag by lia. cbn [nth].
  rewrite quot8_div by now apply Z.divide_mul_r.
  specialize (IH (pre ++ [st]) p2). rewrite app_length in IH. cbn [length] in IH.
  replace (length pre + 1 - 1) with (length pre) in IH by lia. rewrite IH; auto; [|now rewrite <- app_assoc|lia].
  cbn [offset]. destruct D1 as [q ->]. destruct (offset_div p2 i2 D2) as [r ->].
  replace (i * (q * 8) + r * 8)%Z with ((i * q + r) * 8)%Z by lia. replace (i * (q * 8))%Z with (i * q * 8)%Z by lia.
  rewrite !Z.div_mul by lia. reflexivity.
Qed.

Lemma start_before pst axis st p2 i2 p1 : forall pre i1, pst = pre ++ p1 ++ st :: p2 -> axis = length pre + length p1 ->
  length p1 = length i1 -> length p2 = length i2 -> Forall (fun st => (8 | st)%Z) (p1 ++ st :: p2) ->
  pr_start pst axis (length pre) (i1 ++ i2) = (offset p1 i1 / 8 + offset p2 i2 / 8)%Z.
Proof.
  induction p1 as [|a p1 IH]; intros pre [|i i1] E C L1 L2 D; try discriminate L1; cbn [app] in *.
  - inversion D; subst. cbn [offset length]. rewrite Z.div_0_l, Z.add_0_l by lia.
    pose proof (start_after (pre ++ st :: p2) (length pre + 0) i2 (pre ++ [st]) p2) as S.
    rewrite app_length in S. cbn [length] in S. replace (length pre + 1 - 1) with (length pre) in S by lia.
    apply S; auto; [now rewrite <- app_assoc|lia].
  - inversion D as [|x y D1 D2]; subst x y. cbn [pr_start length] in *.
    destruct (Nat.leb_spec axis (length pre)); [lia|].
    rewrite E at 1. rewrite app_nth2, Nat.sub_diag by lia. cbn [nth].
    rewrite quot8_div by now apply Z.divide_mul_r.
    specialize (IH (pre ++ [a]) i1). rewrite app_length in IH. cbn [length] in IH.
    replace (length pre + 1) with (S (length pre)) in IH by lia. rewrite IH; auto; try lia; [|now rewrite <- app_assoc].
    cbn [offset]. destruct D1 as [q ->]. 
    assert (D3 : Forall (fun st => (8 | st)%Z) p1) by (apply Forall_app in D2; tauto).
    destruct (offset_div p1 i1 D3) as [r ->].
    replace (i * (q * 8) + r * 8)%Z with ((i * q + r) * 8)%Z by lia. replace (i * (q * 8))%Z with (i * q * 8)%Z by lia.
    rewrite !Z.div_mul by lia. lia.
Qed.

(** * Index arithmetic *)
Section Cell.
Variables A d B : nat.
Lemma cell_of a j b : b < B -> cell d B (a * B + b) j = (a * d + j) * B + b.
Proof.
  intros H. unfold cell. replace ((a * B + b) / B) with a by (rewrite Nat.div_add_l, Nat.div_small; lia).
  replace ((a * B + b) mod B) with b; [reflexivity|]. rewrite Nat.add_comm, Nat.mod_add, Nat.mod_small; lia.
Qed.
Lemma cell_inj k k' j j' : 0 < B -> j < d -> j' < d -> cell d B k j = cell d B k' j' -> k = k' /\ j = j'.
Proof.
  intros HB Hj Hj' E. unfold cell in E.
  pose proof (Nat.div_mod k B ltac:(lia)) as K. pose proof (Nat.div_mod k' B ltac:(lia)) as K'.
  pose proof (Nat.mod_upper_bound k B ltac:(lia)). pose proof (Nat.mod_upper_bound k' B ltac:(lia)).
  set (a := k / B) in *. set (a' := k' / B) in *. set (b := k mod B) in *. set (b' := k' mod B) in *.
  assert (b = b').
  { replace b with (((a * d + j) * B + b) mod B) by (rewrite Nat.add_comm, Nat.mod_add, Nat.mod_small; lia).
    rewrite E. rewrite Nat.add_comm, Nat.mod_add, Nat.mod_small; lia. }
  assert (X : a * d + j = a' * d + j') by nia.
  assert (a = a').
  { replace a with ((a * d + j) / d) by (rewrite Nat.div_add_l, (Nat.div_small j d); lia).
    rewrite X. rewrite Nat.div_add_l, (Nat.div_small j' d); lia. }
  split; [nia|]. subst a'. nia.
Qed.
Lemma cell_bound k j : k < A * B -> j < d -> cell d B k j < A * d * B.
Proof.
  intros Hk Hj. assert (0 < B) by nia. unfold cell. pose proof (Nat.mod_upper_bound k B ltac:(lia)).
  assert (k / B < A) by (apply Nat.div_lt_upper_bound; lia).
  assert (k / B * d + j + 1 <= A * d) by nia. nia.
Qed.
End Cell.

(** Changing one element changes one sum. *)
Lemma nth_lset (l : list Qc) i v k z : nth k (lset i v l) z = if (i =? k) && (k <? length l) then v else nth k l z.
Proof.
  destruct (nth_error (lset i v l) k) as [x|] eqn:E.
  - rewrite (nth_error_nth _ _ z E). rewrite nth_error_lset in E.
    destruct (Nat.eqb_spec i k) as [->|]; cbn [andb] in *.
    + destruct (Nat.ltb_spec k (length l)); [congruence|]. rewrite (nth_error_nth _ _ z E). reflexivity.
    + rewrite (nth_error_nth _ _ z E). reflexivity.
  - apply nth_error_None in E. rewrite lset_length in E. rewrite !nth_overflow by (rewrite ?lset_length; lia).
    destruct (Nat.ltb_spec k (length l)); [lia|]. now rewrite andb_false_r.
Qed.
Lemma sum_step (phi : nat -> nat) (l : list Qc) i v o js : nth_error l i = Some o ->
  NoDup js -> (forall j j', In j js -> In j' js -> phi j = phi j' -> j = j') ->
  qsum_of (map (fun j => nth (phi j) (lset i v l) 0%Qc) js) =
  (qsum_of (map (fun j => nth (phi j) l 0%Qc) js) + (if existsb (fun j => phi j =? i) js then v - o else 0))%Qc.
Proof.
  intros E ND. pose proof (nth_error_lt _ _ E) as L. induction ND as [|j js N ND IH]; intros H; cbn [map qsum_of existsb].
  - ring.
  - rewrite IH by (intros; apply H; cbn; auto). rewrite nth_lset. rewrite (Nat.eqb_sym i). destruct (Nat.eqb_spec (phi j) i) as [Ej|Ej]; cbn [andb orb].
    + destruct (Nat.ltb_spec (phi j) (length l)); [|lia]. rewrite Ej, (nth_error_nth _ _ 0%Qc E).
      assert (X : existsb (fun j0 => phi j0 =? i) js = false).
      { apply not_true_iff_false. intros X. apply existsb_exists in X. destruct X as [j' [I' E']]. apply Nat.eqb_eq in E'.
        assert (j = j') by (apply H; cbn; auto; congruence). subst. contradiction. }
      rewrite X. ring.
    + ring.
Qed.

Lemma axis_sum_step d B init l a j b v o : 0 < B -> j < d -> b < B ->
  nth_error l ((a * d + j) * B + b) = Some o ->
  forall k, axis_sum d B init (lset ((a * d + j) * B + b) v l) k =
    if k =? a * B + b then (axis_sum d B init l k + (v - o))%Qc else axis_sum d B init l k.
Proof.
  intros HB Hj Hb E k. unfold axis_sum.
  rewrite (sum_step (cell d B k) l _ v o (seq 0 d) E).
  - destruct (Nat.eqb_spec k (a * B + b)) as [->|N].
    + replace (existsb _ _) with true; [ring|]. symmetry. apply existsb_exists. exists j. split; [apply in_seq; lia|].
      apply Nat.eqb_eq. now apply cell_of.
    + replace (existsb _ _) with false; [ring|]. symmetry. apply not_true_iff_false. intros X. apply existsb_exists in X.
      destruct X as [j' [I X]]. apply in_seq in I. apply Nat.eqb_eq in X. rewrite <- (cell_of d B a j b Hb) in X.
      apply cell_inj in X; lia.
  - apply seq_NoDup.
  - intros x y Ix Iy X. apply in_seq in Ix, Iy. apply cell_inj in X; lia.
Qed.

Lemma rall_map {X Y} (f : X -> res Y) g l : (forall x, In x l -> f x = Ok (g x)) -> rall (map f l) = Ok (map g l).
Proof.
  induction l as [|x l IH]; intros H; [reflexivity|]. cbn [map rall]. rewrite H by now left. cbn [rbind].
  rewrite IH by (intros; apply H; now right). reflexivity.
Qed.

(** * The node *)
Section Dims.
Variable s : list Z.
Variable axis : nat.
Variable init : Qc.
Hypothesis Ws : wf_shape s.
Hypothesis Ds : dynamic s = false.
Hypothesis Ps : (1 <= prod s)%Z.
Hypothesis Ax : axis < length s.

Notation A := (dim_before s axis).
Notation d := (dim_at s axis).
Notation B := (dim_after s axis).
Notation sums l := (map (axis_sum d B init l) (seq 0 (A * B))).

Lemma all_pos : Forall (fun e => (0 < e)%Z) s.
Proof.
  clear Ax.
  destruct Ws as [T [_ H]]. destruct s as [|e t]; [constructor|]. cbn [tl prod] in *. constructor; [|exact T].
  pose proof (prod_pos _ T). unfold dynamic in Ds. apply Z.ltb_ge in Ds. nia.
Qed.

Lemma dims : exists s1 d0 s2, s = s1 ++ d0 :: s2 /\ length s1 = axis /\ pr_shape s axis = s1 ++ s2 /\
  (0 < d0)%Z /\ Forall (fun e => (0 < e)%Z) s1 /\ Forall (fun e => (0 < e)%Z) s2 /\
  prod s1 = Z.of_nat A /\ d0 = Z.of_nat d /\ prod s2 = Z.of_nat B.
Proof.
  destruct (split_axis s axis Ax) as (s1 & d0 & s2 & E & L & F & K & N & D).
  exists s1, d0, s2. pose proof all_pos as P. rewrite E in P. apply Forall_app in P. destruct P as [P1 P2].
  inversion P2 as [|x y Pd P3]; subst x y.
  pose proof (prod_pos _ P1). pose proof (prod_pos _ P3).
  unfold dim_before, dim_at, dim_after. rewrite F, K, N. repeat split; auto; lia.
Qed.

Lemma size_eq : Z.to_nat (prod s) = A * d * B /\ prod (pr_shape s axis) = Z.of_nat (A * B) /\ 0 < B /\ 0 < d /\ 0 < A.
Proof.
  destruct dims as (s1 & d0 & s2 & E & L & Sh & Pd & P1 & P2 & EA & Ed & EB).
  pose proof (prod_pos _ P1). pose proof (prod_pos _ P2).
  pose proof (f_equal prod E) as Ep. rewrite prod_app in Ep. cbn [prod] in Ep. pose proof (f_equal prod Sh) as Eo. rewrite prod_app in Eo.
  rewrite EA, EB in *. rewrite Ed in Ep, Pd. repeat split; try lia; nia.
Qed.

Lemma fits_length (l : list Qc) : fits s l <-> length l = A * d * B.
Proof.
  destruct size_eq as [E _]. unfold fits, fits_len. rewrite Ds. rewrite <- E. split; intros; lia.
Qed.

Lemma out_fits (v : list Qc) : fits (pr_shape s axis) v <-> length v = A * B.
Proof.
  destruct size_eq as [_ [So _]]. unfold fits, fits_len.
  destruct dims as (s1 & d0 & s2 & E & L & Sh & Pd & P1 & P2 & _).
  replace (dynamic (pr_shape s axis)) with false.
  - rewrite So. split; intros; lia.
  - symmetry. rewrite Sh. assert (P : Forall (fun e => (0 < e)%Z) (s1 ++ s2)) by (apply Forall_app; auto).
    destruct (s1 ++ s2) as [|e t]; [reflexivity|]. inversion P; subst. unfold dynamic. apply Z.ltb_ge. lia.
Qed.

Lemma out_size : Z.to_nat (shape_to_size (pr_shape s axis)) = A * B.
Proof.
  destruct size_eq as [Sz [So [HB [Hd HA]]]]. destruct dims as (s1 & d0 & s2 & E & L & Sh & Pd & P1 & P2 & _).
  assert (Po : Forall (fun e => (0 < e)%Z) (pr_shape s axis)) by (rewrite Sh; apply Forall_app; auto).
  assert (Le : (prod (pr_shape s axis) <= prod s)%Z) by (rewrite So; nia).
  assert (W : wf_shape (pr_shape s axis)).
  { split; [|split].
    - destruct Po; cbn [tl]; [constructor|assumption].
    - destruct Ws as [_ [Wp _]]. lia.
    - destruct Po; [exact I|lia]. }
  rewrite (static_size _ W); [rewrite So; lia|]. unfold dynamic. destruct Po; [reflexivity|]. apply Z.ltb_ge. lia.
Qed.

Lemma insert_split s1 s2 i1 i2 j : length s1 = axis -> in_range s1 i1 -> in_range s2 i2 ->
  insert_at axis j (i1 ++ i2) = i1 ++ j :: i2.
Proof.
  intros L R1 R2. pose proof (in_range_len _ _ R1) as E. unfold insert_at.
  replace axis with (length i1) by lia. rewrite firstn_app, skipn_app, Nat.sub_diag, firstn_all, skipn_all. cbn [firstn skipn app].
  now rewrite app_nil_r.
Qed.

(** The function is the sum along the axis, in terms of multi-indices. *)
Lemma axis_sums_ok l out : pr_fun s axis init [l] = Some out -> axis_sums init s axis l out.
Proof.
  destruct dims as (s1 & d0 & s2 & E & L & Sh & Pd & P1 & P2 & EA & Ed & EB).
  destruct size_eq as [Sz [So [HB [Hd HA]]]].
  unfold pr_fun, axis_fun. destruct (Nat.eqb_spec (length l) (A * d * B)) as [Ll|]; [|discriminate].
  intros H. assert (out = sums l) by congruence. subst out.
  assert (Rm : remove_at axis s = s1 ++ s2) by exact Sh.
  split; [rewrite map_length, seq_length; exact (eq_sym So)|]. intros idx R. rewrite Rm in *.
  destruct (in_range_split _ _ _ R) as (i1 & i2 & -> & R1 & R2).
  pose proof (rank_bounds _ _ R1) as B1. pose proof (rank_bounds _ _ R2) as B2.
  rewrite rank_app by (apply in_range_len; auto).
  set (k := Z.to_nat (rank s1 i1 * prod s2 + rank s2 i2)).
  assert (Ek : k = Z.to_nat (rank s1 i1) * B + Z.to_nat (rank s2 i2)).
  { unfold k. apply Nat2Z.inj. rewrite Nat2Z.inj_add, Nat2Z.inj_mul, !Z2Nat.id by nia. rewrite <- EB. lia. }
  assert (Hk : k < A * B).
  { rewrite Ek. assert (Z.to_nat (rank s1 i1) < A) by lia. assert (Z.to_nat (rank s2 i2) < B) by lia. nia. }
  exists (map (fun j => nth (cell d B k j) l 0%Qc) (seq 0 d)). split; [rewrite map_length, seq_length; reflexivity|]. split.
  - intros j Hj. change (Z.to_nat (nth axis s 0%Z)) with d in Hj.
    rewrite nth_error_map, nth_error_seq. destruct (Nat.ltb_spec j d); [|lia]. cbn [option_map Nat.add].
    rewrite (insert_split s1 s2) by auto.
    pose proof (in_range_len _ _ R1) as Li1. pose proof (in_range_len _ _ R2) as Li2.
    assert (Rk : rank s (i1 ++ Z.of_nat j :: i2) = (rank s1 i1 * (d0 * prod s2) + (Z.of_nat j * prod s2 + rank s2 i2))%Z).
    { rewrite E, rank_app, rank_cons by (cbn [length]; lia). reflexivity. }
    rewrite Rk.
    assert (C : cell d B k j = Z.to_nat (rank s1 i1 * (d0 * prod s2) + (Z.of_nat j * prod s2 + rank s2 i2))).
    { rewrite Ek. rewrite cell_of by lia. apply Nat2Z.inj. rewrite !Nat2Z.inj_add, !Nat2Z.inj_mul, Nat2Z.inj_add, Nat2Z.inj_mul, !Z2Nat.id by nia.
      rewrite <- EB, <- Ed. lia. }
    rewrite <- C. apply nth_error_nth'. rewrite Ll. apply cell_bound; lia.
  - rewrite nth_error_map, nth_error_seq. destruct (Nat.ltb_spec k (A * B)); [reflexivity|lia].
Qed.
End Dims.

Section Node.
Variable dbg : bool.
Variables s pst : list Z.
Variable axis : nat.
Variable init : Qc.
Variable mem : list Qc -> Z -> option Qc.
Hypothesis Ws : wf_shape s.
Hypothesis Ds : dynamic s = false.
Hypothesis Ps : (1 <= prod s)%Z.
Hypothesis Ax : axis < length s.
Hypothesis Pm : presents s pst mem.
Hypothesis Dbg : dbg = true -> (Z.of_nat axis < prod s)%Z /\ Forall (fun st => (0 <= st)%Z) pst.

Notation A := (dim_before s axis).
Notation d := (dim_at s axis).
Notation B := (dim_after s axis).
Notation sums l := (map (axis_sum d B init l) (seq 0 (A * B))).

Lemma decomp i : i < A * d * B -> exists a j b, a < A /\ j < d /\ b < B /\ i = (a * d + j) * B + b /\
  map_parent_index dbg s axis (A * d * B) i = Ok (Z.of_nat (a * B + b)).
Proof.
  intros Hi. destruct (dims s axis Ws Ds Ps Ax) as (s1 & d0 & s2 & E & L & Sh & Pd & P1 & P2 & EA & Ed & EB).
  destruct (size_eq s axis Ws Ds Ps Ax) as [Sz _].
  destruct (rank_surj s (Z.of_nat i) (all_pos s Ws Ds Ps)) as [idx [R Er]]; [lia|].
  rewrite E in R. destruct (in_range_split _ _ _ R) as (i1 & i2' & -> & R1 & R2').
  inversion R2' as [|x j y i2 Hj R2]; subst x y i2'.
  pose proof (rank_bounds _ _ R1) as B1. pose proof (rank_bounds _ _ R2) as B2.
  rewrite E, rank_app, rank_cons in Er by (try apply in_range_len; auto). cbn [prod] in Er.
  exists (Z.to_nat (rank s1 i1)), (Z.to_nat j), (Z.to_nat (rank s2 i2)).
  split; [lia|]. split; [lia|]. split; [lia|].
  split; [apply Nat2Z.inj; rewrite !Nat2Z.inj_add, !Nat2Z.inj_mul, Nat2Z.inj_add, Nat2Z.inj_mul, !Z2Nat.id by lia; rewrite <- EB, <- Ed; lia|].
  unfold map_parent_index.
  assert (G : dbg && negb ((axis <? A * d * B) && (i <? A * d * B)) = false).
  { destruct dbg; [|reflexivity]. cbn [andb]. destruct (Dbg eq_refl) as [H _].
    destruct (Nat.ltb_spec axis (A * d * B)); [|lia]. destruct (Nat.ltb_spec i (A * d * B)); [reflexivity|lia]. }
  rewrite G, Sh. rewrite E at 1.
  replace (Z.of_nat i) with (rank (s1 ++ d0 :: s2) (i1 ++ j :: i2)).
  2:{ rewrite rank_app, rank_cons by (try apply in_range_len; auto). cbn [prod]. exact Er. }
  rewrite map_before; auto; try lia. 2:{ rewrite <- E. apply (all_pos s Ws Ds Ps). }
  rewrite rank_app by (apply in_range_len; auto). f_equal.
  rewrite !Nat2Z.inj_add, !Nat2Z.inj_mul, !Z2Nat.id by lia. rewrite EB. lia.
Qed.

Lemma read_ok l k : fits s l -> k < A * B -> pr_reduce dbg s pst axis init mem l k = Ok (axis_sum d B init l k).
Proof.
  intros Hf Hk. destruct (dims s axis Ws Ds Ps Ax) as (s1 & d0 & s2 & E & L & Sh & Pd & P1 & P2 & EA & Ed & EB).
  destruct (size_eq s axis Ws Ds Ps Ax) as [Sz [So [HB [Hd HA]]]]. pose proof (proj1 (fits_length s axis Ws Ds Ps Ax l) Hf) as Ll.
  assert (Po : Forall (fun e => (0 < e)%Z) (pr_shape s axis)) by (rewrite Sh; apply Forall_app; auto).
  destruct (rank_surj (pr_shape s axis) (Z.of_nat k) Po) as [idx [R Er]]; [lia|].
  assert (Bd : (8 * prod (pr_shape s axis) <= SMAX)%Z).
  { rewrite So. assert (Z.of_nat (A * B) <= prod s)%Z by nia. destruct Ws as [_ [Wp _]]. unfold SMAX. lia. }
  unfold pr_reduce. rewrite <- Er, (unravel_ok _ idx Po Bd R). cbn [rbind].
  rewrite Sh in R, Er. destruct (in_range_split _ _ _ R) as (i1 & i2 & -> & R1 & R2).
  pose proof (rank_bounds _ _ R1) as B1. pose proof (rank_bounds _ _ R2) as B2.
  rewrite rank_app in Er by (apply in_range_len; auto).
  destruct Pm as [Lp [Dv M]].
  assert (Axp : axis < length pst) by lia.
  destruct (split_axis pst axis Axp) as (p1 & st & p2 & Ep & Lp1 & _ & _ & Np & _).
  assert (Lp2 : length p2 = length s2).
  { rewrite Ep, E, !app_length in Lp. cbn [length] in Lp. lia. }
  pose proof (in_range_len _ _ R1) as Li1. pose proof (in_range_len _ _ R2) as Li2.
  pose proof (start_before pst axis st p2 i2 p1 [] i1) as St. cbn [length app Nat.add] in St.
  rewrite St; auto; try lia. 2:{ rewrite <- Ep. exact Dv. }
  assert (Dp : Forall (fun st => (8 | st)%Z) p1 /\ (8 | st)%Z /\ Forall (fun st => (8 | st)%Z) p2).
  { rewrite Ep in Dv. apply Forall_app in Dv. destruct Dv as [V1 V2]. inversion V2; auto. }
  destruct Dp as [Dp1 [Dst Dp2]].
  assert (G : dbg && (offset p1 i1 / 8 + offset p2 i2 / 8 <? 0)%Z = false).
  { destruct dbg; [|reflexivity]. cbn [andb]. apply Z.ltb_ge. destruct (Dbg eq_refl) as [_ H]. rewrite Ep in H.
    apply Forall_app in H. destruct H as [H1 H2]. inversion H2 as [|x y H3 H4]; subst x y.
    assert (X : forall sh p i, Forall (fun st => (0 <= st)%Z) p -> in_range sh i -> (0 <= offset p i)%Z).
    { clear. intros sh p i H. revert sh i. induction H as [|x p Hx H IH]; intros sh i R; inversion R; subst; cbn [offset]; try lia.
      specialize (IH _ _ H1). nia. }
    pose proof (X _ _ _ H1 R1). pose proof (X _ _ _ H4 R2).
    pose proof (Z.div_pos (offset p1 i1) 8). pose proof (Z.div_pos (offset p2 i2) 8). lia. }
  rewrite G, Np.
  destruct (split_axis s axis Ax) as (s1' & d0' & s2' & E' & L' & _ & _ & Ns & _).
  assert (Edim : Z.to_nat (nth axis s 0%Z) = d) by reflexivity. rewrite Edim.
  replace (map _ (seq 0 d)) with (map Some (map (fun j => nth (cell d B k j) l 0%Qc) (seq 0 d))).
  - rewrite all_some_map. cbn [map]. rewrite fold_add. unfold axis_sum.
    replace (k) with k by reflexivity. reflexivity.
  - rewrite map_map. apply map_ext_in. intros j Hj. apply in_seq in Hj. symmetry.
    assert (Rj : in_range s (i1 ++ Z.of_nat j :: i2)).
    { rewrite E. apply in_range_app; [exact R1|]. constructor; [lia|exact R2]. }
    specialize (M l (i1 ++ Z.of_nat j :: i2) Hf Rj). rewrite Ep, offset_app in M by lia. cbn [offset] in M.
    replace ((offset p1 i1 + (Z.of_nat j * st + offset p2 i2)) / 8)%Z
      with (offset p1 i1 / 8 + offset p2 i2 / 8 + Z.of_nat j * Z.quot st itemsize)%Z in M.
    2:{ rewrite quot8_div by exact Dst. destruct Dst as [q ->]. destruct (offset_div p1 i1 Dp1) as [r1 ->].
        destruct (offset_div p2 i2 Dp2) as [r2 ->].
        replace (r1 * 8 + (Z.of_nat j * (q * 8) + r2 * 8))%Z with ((r1 + (Z.of_nat j * q + r2)) * 8)%Z by lia.
        rewrite !Z.div_mul by lia. lia. }
    assert (Rk : rank s (i1 ++ Z.of_nat j :: i2) = (rank s1 i1 * (d0 * prod s2) + (Z.of_nat j * prod s2 + rank s2 i2))%Z).
    { rewrite E, rank_app, rank_cons by (cbn [length]; lia). reflexivity. }
    rewrite M, Rk.
    assert (C : cell d B k j = Z.to_nat (rank s1 i1 * (d0 * prod s2) + (Z.of_nat j * prod s2 + rank s2 i2))).
    { replace k with (Z.to_nat (rank s1 i1) * B + Z.to_nat (rank s2 i2)).
      2:{ apply Nat2Z.inj. rewrite Nat2Z.inj_add, Nat2Z.inj_mul, !Z2Nat.id by lia. rewrite <- EB. lia. }
      rewrite cell_of by lia. apply Nat2Z.inj. rewrite !Nat2Z.inj_add, !Nat2Z.inj_mul, Nat2Z.inj_add, Nat2Z.inj_mul, !Z2Nat.id by nia.
      rewrite <- EB, <- Ed. lia. }
    rewrite <- C. apply nth_error_nth'. rewrite Ll. apply cell_bound; lia.
Qed.

Lemma pr_loop c us : forall l l1 dt, length l = A * d * B -> replay qeqb l us = Some l1 -> Forall is_change us ->
  Inv qeqb c dt -> abuf dt = sums l -> Forall is_change (aupd dt) ->
  exists dt', rfold (pr_step dbg s axis (A * d * B)) dt us = Ok dt' /\ Inv qeqb c dt' /\ abuf dt' = sums l1 /\
    Forall is_change (aupd dt').
Proof.
  destruct (size_eq s axis Ws Ds Ps Ax) as [_ [_ [HB _]]].
  induction us as [|u us IH]; intros l l1 dt Ll R C I Eb Cd.
  - rewrite rp_nil in R. injection R as <-. exists dt. auto.
  - destruct (rp_cons_inv _ _ _ _ R) as [l0 [R1 R2]]. inversion C as [|x y [C1 C2] C']; subst x y.
    apply (rp1_inv qeqb_spec) in R1. destruct R1 as [o v Eu En El|v Eu El|o Eu El];
      [|rewrite Eu in C1; cbn in C1; congruence|rewrite Eu in C2; cbn in C2; congruence].
    pose proof (nth_error_lt _ _ En) as Li. rewrite Ll in Li.
    destruct (decomp (uidx u) Li) as (a & j & b & Ha & Hj & Hb & Ei & Em).
    assert (Hk : a * B + b < A * B) by nia.
    assert (Nk : nth_error (abuf dt) (a * B + b) = Some (axis_sum d B init l (a * B + b))).
    { rewrite Eb, nth_error_map, nth_error_seq. destruct (Nat.ltb_spec (a * B + b) (A * B)); [reflexivity|lia]. }
    assert (U1 : uold u = Some o) by (rewrite Eu; reflexivity).
    assert (U2 : uval u = Some v) by (rewrite Eu; reflexivity).
    cbn [rfold]. unfold pr_step at 1. rewrite Em. cbn [rbind]. rewrite Nat2Z.id, Nk, U1, U2.
    apply (IH l0 l1); auto.
    + rewrite El, lset_length. exact Ll.
    + apply Inv_snoc; [exact I|]. now apply (rp_change qeqb_spec).
    + cbn [abuf]. rewrite Eb. apply nth_error_ext. intros k. destruct (Nat.lt_ge_cases k (A * B)) as [Hlt|Hge].
      * assert (N : forall m, nth_error (sums m) k = Some (axis_sum d B init m k)).
        { intros m. rewrite nth_error_map, nth_error_seq, (proj2 (Nat.ltb_lt _ _) Hlt). reflexivity. }
        rewrite nth_error_lset, map_length, seq_length, !N, (proj2 (Nat.ltb_lt _ _) Hk), andb_true_r.
        rewrite El, Ei. rewrite Ei in En. rewrite (axis_sum_step d B init l a j b v o HB Hj Hb En k).
        rewrite (Nat.eqb_sym k). destruct (Nat.eqb_spec (a * B + b) k) as [<-|]; reflexivity.
      * rewrite !(proj2 (nth_error_None _ _)); rewrite ?lset_length, ?map_length, ?seq_length; auto.
    + cbn [aupd]. apply Forall_app. split; [exact Cd|]. constructor; [split; discriminate|constructor].
Qed.

Theorem partial_ok_node :
  node_ok qeqb (array_node 0%Qc (pr_shape s axis) [s] (pr_init dbg s pst axis init mem) (pr_prop dbg s axis)) (pr_fun s axis init).
Proof.
  apply array_node_ok; [exact qeqb_spec| |].
  - intros ins v Hf HF. destruct ins as [|l [|b ins]]; try discriminate. inversion Hf as [|x y z w Hl _]; subst.
    unfold pr_fun, axis_fun in HF. rewrite (proj1 (fits_length s axis Ws Ds Ps Ax l) Hl), Nat.eqb_refl in HF.
    assert (v = sums l) by congruence. subst v. split.
    + apply (out_fits s axis Ws Ds Ps Ax). now rewrite map_length, seq_length.
    + cbn [map pr_init still pview]. rewrite (out_size s axis Ws Ds Ps Ax).
      rewrite (rall_map _ (axis_sum d B init l)); [reflexivity|]. intros k Hk. apply in_seq in Hk. apply read_ok; [exact Hl|lia].
  - intros ins v pins v' L HF HP HF'. destruct ins as [|l [|b ins]]; try discriminate.
    unfold pins_ok in HP. cbn [combine] in HP. inversion HP as [|x1 p x3 x4 Pl HP1]; subst. inversion HP1; subst.
    cbn [fst snd map] in *. destruct Pl as [p1 p2 p3 p4 p5].
    pose proof (proj1 (fits_length s axis Ws Ds Ps Ax l) p1) as Ll. pose proof (proj1 (fits_length s axis Ws Ds Ps Ax (pview p)) p2) as Ll'.
    unfold pr_fun, axis_fun in HF, HF'. rewrite Ll, Nat.eqb_refl in HF. rewrite Ll', Nat.eqb_refl in HF'.
    assert (v = sums l) by congruence. assert (v' = sums (pview p)) by congruence. subst v v'.
    cbn [pr_prop]. rewrite Ll'.
    destruct (pr_loop (sums l) (pdiff p) l (pview p) (a_init (sums l)) Ll p3 (p5 Ds) (Inv_init qeqb _) eq_refl) as [d' [Q1 [Q2 [Q3 Q4]]]]; [constructor|].
    exists d'. auto.
Qed.

End Node.

Lemma contiguous_presents s : presents s (shape_to_strides s) (fun l k => nth_error l (Z.to_nat k)).
Proof.
  split; [|split].
  - induction s as [|d s IH]; [reflexivity|]. rewrite strides_cons. cbn [length]. now rewrite IH.
  - induction s as [|d s IH]; [constructor|]. rewrite strides_cons. constructor; [exists (prod s); lia|exact IH].
  - intros l idx _ R. rewrite (strides_layout s idx R). f_equal. f_equal. rewrite Z.mul_comm. apply Z.div_mul. lia.
Qed.
