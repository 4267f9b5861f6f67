From Verif Require Import Base SliceModel ShapeModel ShapeSpec ShapeProofs StateDataModel NodeSpec BinaryModel Num QuadModel PermModel PermSpec PermProofs DedupModel AdvModel AdvSpec.
Local Open Scope Z_scope.

(** Weights of a shape: strides in elements. *)
Lemma wt_nil : istrides [] = [].
Proof. reflexivity. Qed.
Lemma wt_cons d sh : istrides (d :: sh) = prod sh :: istrides sh.
Proof. unfold istrides. rewrite strides_cons. cbn [map]. f_equal. rewrite Z.mul_comm. apply Z.div_mul. lia. Qed.
Lemma wt_len sh : length (istrides sh) = length sh.
Proof. induction sh as [|d sh IH]; [reflexivity|]. rewrite wt_cons. cbn [length]. now rewrite IH. Qed.
Lemma wt_hd d d' sh : istrides (d :: sh) = istrides (d' :: sh).
Proof. now rewrite !wt_cons. Qed.

Lemma rank_offset sh idx : length sh = length idx -> rank sh idx = offset (istrides sh) idx.
Proof.
  revert idx; induction sh as [|d sh IH]; intros [|i idx] L; try discriminate L; [reflexivity|].
  rewrite rank_cons by (cbn in L; lia). rewrite wt_cons. cbn [offset]. rewrite IH by (cbn in L; lia). reflexivity.
Qed.

(** pick, merge *)
Lemma pick_len {X Y} b spec (l : list X) (l' : list Y) : length l = length l' -> length (pick b spec l) = length (pick b spec l').
Proof.
  revert l l'; induction spec as [|c spec IH]; intros [|x l] [|y l'] L; try discriminate L; try reflexivity.
  cbn [pick]. destruct (Bool.eqb c b); cbn [length]; rewrite (IH l l') by (cbn in L; lia); reflexivity.
Qed.
Lemma merge_len spec cs ss : length (merge spec cs ss) = length spec.
Proof. revert cs ss; induction spec as [|[] spec IH]; intros; cbn [merge length]; [reflexivity| |]; now rewrite IH. Qed.

Lemma offset_merge spec w cs ss : length w = length spec ->
  length cs = length (pick true spec w) -> length ss = length (pick false spec w) ->
  offset w (merge spec cs ss) = offset (pick true spec w) cs + offset (pick false spec w) ss.
Proof.
  revert w cs ss; induction spec as [|[] spec IH]; intros [|x w] cs ss L L1 L2; try discriminate L.
  - cbn [pick] in *. destruct cs, ss; try discriminate. reflexivity.
  - cbn [pick Bool.eqb merge length] in *. destruct cs as [|c cs]; [discriminate|]. cbn [hd tl offset]. rewrite IH by (cbn in *; lia). lia.
  - cbn [pick Bool.eqb merge length] in *. destruct ss as [|s ss]; [discriminate|]. cbn [hd tl offset]. rewrite IH by (cbn in *; lia). lia.
Qed.

Lemma in_range_merge spec sh cs ss : length sh = length spec ->
  in_range (pick true spec sh) cs -> in_range (pick false spec sh) ss -> in_range sh (merge spec cs ss).
Proof.
  revert sh cs ss; induction spec as [|[] spec IH]; intros [|x sh] cs ss L H1 H2; try discriminate L.
  - constructor.
  - cbn [pick Bool.eqb] in *. inversion H1; subst. cbn [merge hd tl]. constructor; auto. apply IH; auto.
  - cbn [pick Bool.eqb] in *. inversion H2; subst. cbn [merge hd tl]. constructor; auto. apply IH; auto.
Qed.

Lemma pick_merge_true spec (sh : list Z) cs ss : length sh = length spec -> length cs = length (pick true spec sh) -> pick true spec (merge spec cs ss) = cs.
Proof.
  revert sh cs ss; induction spec as [|[] spec IH]; intros [|x sh] cs ss L L1; try discriminate L; cbn [merge pick Bool.eqb] in *.
  - destruct cs; [reflexivity|discriminate].
  - destruct cs as [|c cs]; [discriminate|]. cbn [hd tl]. f_equal. apply (IH sh); cbn in *; lia.
  - apply (IH sh); cbn in *; lia.
Qed.
Lemma pick_merge_false spec (sh : list Z) cs ss : length sh = length spec -> length ss = length (pick false spec sh) -> pick false spec (merge spec cs ss) = ss.
Proof.
  revert sh cs ss; induction spec as [|[] spec IH]; intros [|x sh] cs ss L L1; try discriminate L; cbn [merge pick Bool.eqb] in *.
  - destruct ss; [reflexivity|discriminate].
  - apply (IH sh); cbn in *; lia.
  - destruct ss as [|c ss]; [discriminate|]. cbn [hd tl]. f_equal. apply (IH sh); cbn in *; lia.
Qed.
Lemma merge_pick spec (l : list Z) : length l = length spec -> merge spec (pick true spec l) (pick false spec l) = l.
Proof.
  revert l; induction spec as [|[] spec IH]; intros [|x l] L; try discriminate L; cbn [merge pick Bool.eqb hd tl]; [reflexivity| |];
    f_equal; apply IH; cbn in L; lia.
Qed.
Lemma in_range_pick b spec sh idx : in_range sh idx -> in_range (pick b spec sh) (pick b spec idx).
Proof.
  intros H; revert spec; induction H as [|d i sh idx H F IH]; intros [|c spec]; cbn [pick]; try constructor.
  destruct (Bool.eqb c b); [constructor; auto; apply IH|apply IH].
Qed.
Lemma pick_map {X Y} (f : X -> Y) b spec l : pick b spec (map f l) = map f (pick b spec l).
Proof. revert l; induction spec as [|c spec IH]; intros [|x l]; cbn [pick map]; auto. destruct (Bool.eqb c b); cbn [map]; now rewrite IH. Qed.

Lemma slice_dims_pick spec sh : slice_dims spec sh = pick false spec sh.
Proof. revert sh; induction spec as [|[] spec IH]; intros [|d sh]; cbn [slice_dims pick Bool.eqb]; auto. now rewrite IH. Qed.

(** ins, del *)
Lemma ins_len {X} k (x : X) l : length (ins k x l) = S (length l).
Proof. unfold ins. rewrite app_length. cbn [length]. rewrite firstn_length, skipn_length. lia. Qed.
Lemma ins_S {X} k (x y : X) l : ins (S k) x (y :: l) = y :: ins k x l.
Proof. reflexivity. Qed.
Lemma del_ins {X} k (x : X) l : (k <= length l)%nat -> del k (ins k x l) = l.
Proof.
  revert k; induction l as [|y l IH]; intros [|k] H; cbn in H; try lia; try reflexivity.
  change (y :: del k (ins k x l) = y :: l). f_equal. apply IH. lia.
Qed.
Lemma nth_ins {X} k (x d : X) l : (k <= length l)%nat -> nth k (ins k x l) d = x.
Proof.
  revert k; induction l as [|y l IH]; intros [|k] H; cbn in H; try lia; try reflexivity.
  change (nth k (ins k x l) d = x). apply IH. lia.
Qed.
Lemma ins_del {X} k (d : X) l : (k < length l)%nat -> ins k (nth k l d) (del k l) = l.
Proof.
  revert k; induction l as [|y l IH]; intros [|k] H; cbn in H; try lia; try reflexivity.
  change (y :: ins k (nth k l d) (del k l) = y :: l). f_equal. apply IH. lia.
Qed.
Lemma in_range_ins k d i sh idx : in_range sh idx -> 0 <= i < d -> in_range (ins k d sh) (ins k i idx).
Proof.
  intros H Hi; revert k; induction H as [|e j sh idx H F IH]; intros [|k].
  - repeat constructor; lia.
  - repeat constructor; lia.
  - constructor; [auto|]. now constructor.
  - rewrite !ins_S. constructor; auto. apply IH.
Qed.
Lemma in_range_nth k d sh idx : (k <= length sh)%nat -> in_range (ins k d sh) idx -> 0 <= nth k idx 0 < d /\ in_range sh (del k idx).
Proof.
  revert k idx; induction sh as [|e sh IH]; intros [|k] idx H R; cbn in H; try lia.
  - inversion R as [|? ? ? ? H1 H2]; subst. split; [exact H1|exact H2].
  - inversion R as [|? ? ? ? H1 H2]; subst. split; [exact H1|exact H2].
  - rewrite ins_S in R. inversion R as [|? ? ? ? H1 H2]; subst. destruct (IH k l') as [H3 H4]; [lia|exact H2|].
    split; [exact H3|]. change (in_range (e :: sh) (y :: del k l')). constructor; auto.
Qed.
Lemma offset_ins k w idx j s : length w = length idx -> (k <= length w)%nat ->
  offset (ins k s w) (ins k j idx) = j * s + offset w idx.
Proof.
  revert k idx; induction w as [|x w IH]; intros [|k] [|i idx] L H; cbn in H, L; try lia; try reflexivity.
  rewrite !ins_S. cbn [offset]. rewrite IH by lia. lia.
Qed.
Lemma prod_ins k d sh : prod (ins k d sh) = d * prod sh.
Proof.
  revert k; induction sh as [|e sh IH]; intros [|k]; try reflexivity.
  rewrite ins_S. cbn [prod]. rewrite IH. lia.
Qed.

(** all_idx *)
Lemma in_all_idx sh idx : In idx (all_idx sh) <-> in_range sh idx.
Proof.
  revert idx; induction sh as [|d sh IH]; intros idx; cbn [all_idx].
  - split; [intros [<-|[]]; constructor|]. intros H; inversion H. now left.
  - rewrite in_flat_map. split.
    + intros (i & Hi & H). apply in_seq in Hi. apply in_map_iff in H. destruct H as (t & <- & H). constructor; [lia|]. now apply IH.
    + intros H; inversion H as [|? i ? t H1 H2]; subst. exists (Z.to_nat i). split; [apply in_seq; lia|].
      apply in_map_iff. exists t. split; [f_equal; lia|]. now apply IH.
Qed.
Lemma flat_map_const_len {X Y} (f : X -> list Y) l c : (forall x, In x l -> length (f x) = c) -> length (flat_map f l) = (length l * c)%nat.
Proof. induction l as [|x l IH]; intros H; cbn [flat_map length]; [reflexivity|]. rewrite app_length, IH, (H x); [lia|now left|]. intros y Hy. apply H. now right. Qed.
Lemma all_idx_len sh : Forall (fun d => 0 <= d) sh -> Z.of_nat (length (all_idx sh)) = prod sh.
Proof.
  induction 1 as [|d sh H F IH]; [reflexivity|]. cbn [all_idx prod].
  rewrite (flat_map_const_len _ _ (length (all_idx sh))) by (intros; apply map_length). rewrite seq_length. nia.
Qed.
Lemma nth_error_flat_map_seq {Y} (f : nat -> list Y) c n i r : (forall x, length (f x) = c) -> (i < n)%nat -> (r < c)%nat ->
  nth_error (flat_map f (seq 0 n)) (i * c + r) = nth_error (f i) r.
Proof.
  intros H. assert (G : forall k n i, (i < n)%nat -> (r < c)%nat -> nth_error (flat_map f (seq k n)) (i * c + r) = nth_error (f (k + i)%nat) r).
  { clear i n. intros k n; revert k; induction n as [|n IH]; intros k i Hi Hr; [lia|]. cbn [seq flat_map]. destruct i as [|i].
    - rewrite nth_error_app1 by (rewrite H; lia). cbn. now rewrite Nat.add_0_r.
    - rewrite nth_error_app2 by (rewrite H; lia). rewrite H. replace (S i * c + r - c)%nat with (i * c + r)%nat by lia.
      rewrite IH by lia. f_equal. f_equal. lia. }
  intros Hi Hr. rewrite G by assumption. reflexivity.
Qed.
Lemma in_range_nonneg sh idx : in_range sh idx -> Forall (fun d => 0 <= d) sh.
Proof. intros R. induction R as [|d i sh idx H F IH]; constructor; [lia|exact IH]. Qed.
Lemma nth_all_idx sh idx : in_range sh idx -> nth_error (all_idx sh) (Z.to_nat (rank sh idx)) = Some idx.
Proof.
  intros R. pose proof (in_range_nonneg _ _ R) as P.
  induction R as [|d i sh idx H F IH]; [reflexivity|]. inversion P as [|? ? Hd P']; subst.
  pose proof (rank_bounds _ _ F) as B. pose proof (all_idx_len _ P') as L.
  rewrite rank_cons by (apply in_range_len; exact F). cbn [all_idx].
  replace (Z.to_nat (i * prod sh + rank sh idx)) with (Z.to_nat i * length (all_idx sh) + Z.to_nat (rank sh idx))%nat by nia.
  rewrite nth_error_flat_map_seq; [|intros; apply map_length|lia|lia].
  rewrite nth_error_map, IH by exact P'. cbn. f_equal. f_equal. lia.
Qed.
Lemma all_idx_nth sh k : (k < length (all_idx sh))%nat ->
  exists idx, nth_error (all_idx sh) k = Some idx /\ in_range sh idx /\ rank sh idx = Z.of_nat k.
Proof.
  revert k; induction sh as [|d sh IH]; intros k H; cbn [all_idx] in *.
  - exists []. cbn in H. replace k with O by lia. repeat split. constructor.
  - set (c := length (all_idx sh)) in *.
    assert (Lc : forall x, length (map (cons (Z.of_nat x)) (all_idx sh)) = c) by (intros; apply map_length).
    rewrite (flat_map_const_len _ _ c), seq_length in H by (intros; apply Lc).
    assert (c <> 0)%nat by nia.
    pose proof (Nat.div_mod k c H0) as E. pose proof (Nat.mod_upper_bound k c H0) as M.
    assert (Q : (k / c < Z.to_nat d)%nat) by (apply Nat.div_lt_upper_bound; [assumption|lia]).
    destruct (IH (k mod c)%nat M) as (t & Ht & Rt & Et).
    exists (Z.of_nat (k / c) :: t). split; [|split].
    + replace k with (k / c * c + k mod c)%nat at 1 by lia. rewrite nth_error_flat_map_seq; [|exact Lc|exact Q|exact M].
      rewrite nth_error_map, Ht. reflexivity.
    + constructor; [nia|exact Rt].
    + rewrite rank_cons by (apply in_range_len; exact Rt). rewrite Et.
      assert (Lp : Z.of_nat c = prod sh).
      { apply all_idx_len. exact (in_range_nonneg _ _ Rt). }
      nia.
Qed.
