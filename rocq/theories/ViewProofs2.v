(** Where the elements of a view are. *)
From Verif Require Import Base SliceModel ShapeModel ShapeSpec ShapeProofs ShapeProps SliceSpec StateDataModel NodeSpec BasicModel BasicSpec BasicProofs BasicProps ViewModel ViewSpec.
Local Open Scope Z_scope.

Lemma zseq_app a b : 0 <= a -> 0 <= b -> zseq (a + b) = zseq a ++ map (fun i => a + i) (zseq b).
Proof.
  intros Ha Hb. unfold zseq. rewrite Z2Nat.inj_add, seq_app, map_app by lia. f_equal. cbn [plus].
  transitivity (map (fun i => Z.of_nat (Z.to_nat a) + i) (map Z.of_nat (seq 0 (Z.to_nat b)))); [|now rewrite Z2Nat.id by lia].
  generalize (Z.to_nat a). intros n. clear. rewrite map_map. replace (seq n (Z.to_nat b)) with (map (fun i => (n + i)%nat) (seq 0 (Z.to_nat b))).
  - rewrite map_map. apply map_ext. intros. lia.
  - generalize (Z.to_nat b). intros m. clear. revert n. induction m as [|m IH]; intros n; [reflexivity|]. cbn [seq map]. f_equal; [lia|].
    rewrite <- (IH (S n)), <- seq_shift, map_map. apply map_ext. intros; lia.
Qed.
Lemma zseq_S a : 0 <= a -> zseq (a + 1) = zseq a ++ [a].
Proof. intros H. rewrite zseq_app by lia. f_equal. change (zseq 1) with [0]. cbn [map]. now rewrite Z.add_0_r. Qed.
Lemma zseq_mul d m : 0 <= d -> 0 <= m -> flat_map (fun x => map (fun o => x * m + o) (zseq m)) (zseq d) = zseq (d * m).
Proof.
  intros Hd Hm. rewrite <- (Z2Nat.id d) by exact Hd. generalize (Z.to_nat d). clear d Hd. intros d. induction d as [|d IH]; [reflexivity|].
  rewrite Nat2Z.inj_succ. unfold Z.succ. rewrite zseq_S by lia. rewrite flat_map_app, IH. cbn [flat_map].
  replace ((Z.of_nat d + 1) * m) with (Z.of_nat d * m + m) by ring. rewrite zseq_app by nia. now rewrite app_nil_r.
Qed.

Lemma all_idx_range shape : Forall (fun d => 0 <= d) shape -> Forall (in_range shape) (all_idx shape).
Proof.
  induction 1 as [|d sh Hd H IH]; cbn [all_idx]; [repeat constructor|].
  apply Forall_forall. intros v Hv. apply in_flat_map in Hv as (x & Hx & Hv). apply in_map_iff in Hv as (w & <- & Hw). apply in_zseq in Hx.
  constructor; [lia|]. rewrite Forall_forall in IH. exact (IH w Hw).
Qed.
Lemma prod_nonneg l : Forall (fun d => 0 <= d) l -> 0 <= prod l.
Proof. induction 1; cbn [prod]; nia. Qed.
Lemma all_idx_rank shape : Forall (fun d => 0 <= d) shape -> map (rank shape) (all_idx shape) = zseq (prod shape).
Proof.
  induction 1 as [|d sh Hd H IH]; [reflexivity|]. cbn [all_idx prod]. rewrite map_flat_map. rewrite <- zseq_mul by (auto; now apply prod_nonneg).
  apply flat_map_ext_in. intros x _. rewrite <- IH, !map_map. apply map_ext_in. intros v Hv. apply rank_cons.
  apply in_range_len. pose proof (all_idx_range sh H) as A. rewrite Forall_forall in A. auto.
Qed.

(** The pointers met from [begin] to [end]. *)
Lemma pointers c b d0 n sh s0 st : 0 <= n -> Forall (fun d => 0 < d) sh -> length sh = length st -> Forall (fun s => (8 | s)) (s0 :: st) ->
  (c = true -> layout (n :: sh) (s0 :: st)) ->
  map (fun k => it_ptr (Nat.iter k it_inc (it_begin c b (d0 :: sh) (s0 :: st)))) (seq 0 (Z.to_nat (n * prod sh))) =
  map (fun v => b + offset (s0 :: st) v / 8) (all_idx (n :: sh)).
Proof.
  intros Hn Hp L M Hl.
  assert (Hp0 : Forall (fun d => 0 <= d) (n :: sh)) by (constructor; [lia|]; eapply Forall_impl; [|exact Hp]; cbn; intros; lia).
  pose proof (prod_pos _ Hp) as PP.
  apply nth_error_ext. intros k. rewrite !nth_error_map, nth_error_seq. rewrite Nat.add_0_l.
  assert (R : nth_error (map (rank (n :: sh)) (all_idx (n :: sh))) k = nth_error (zseq (n * prod sh)) k) by now rewrite all_idx_rank.
  unfold zseq in R. rewrite !nth_error_map, nth_error_seq, Nat.add_0_l in R.
  destruct (Nat.ltb_spec k (Z.to_nat (n * prod sh))) as [Hk|Hk].
  - destruct (nth_error (all_idx (n :: sh)) k) as [v|] eqn:Ev; [|discriminate R]. cbn [option_map] in *. f_equal. injection R as R.
    assert (Rv : in_range (n :: sh) v) by (pose proof (all_idx_range _ Hp0) as A; rewrite Forall_forall in A; apply A; eapply nth_error_In; eauto).
    destruct c.
    + specialize (Hl eq_refl v Rv). rewrite Hl, R.
      assert (G : forall j, it_ptr (Nat.iter j it_inc (it_begin true b (d0 :: sh) (s0 :: st))) = b + Z.of_nat j /\ it_shape (Nat.iter j it_inc (it_begin true b (d0 :: sh) (s0 :: st))) = None).
      { induction j as [|j [I1 I2]]; [cbn; split; [lia|reflexivity]|]. change (Nat.iter (S j) it_inc (it_begin true b (d0 :: sh) (s0 :: st))) with (it_inc (Nat.iter j it_inc (it_begin true b (d0 :: sh) (s0 :: st)))).
        destruct (Nat.iter j it_inc (it_begin true b (d0 :: sh) (s0 :: st))) as [q o]. cbn [it_ptr it_shape] in I1, I2. subst o. cbn [it_inc it_ptr it_shape]. split; [lia|reflexivity]. }
      rewrite (proj1 (G k)). rewrite Z.mul_comm, Z.div_mul; lia.
    + assert (S : strided (d0 :: sh) (s0 :: st)) by (split; [congruence|split; [cbn; lia|split; [exact Hp|exact M]]]).
      destruct (C24_forward (d0 :: sh) (s0 :: st) b k S) as (_ & w & Rw & Ew & Pw).
      assert (w = v).
      { inversion Rv as [|? i0 ? v' Hi Hv]; subst. destruct Rw as [Lw Rw]. destruct w as [|j0 w']; [discriminate Lw|]. cbn [tl length] in *.
        assert (Ew' : j0 * prod sh + rank sh w' = Z.of_nat k) by (rewrite <- Ew; symmetry; apply rank_cons; lia).
        rewrite rank_cons in R by (now apply in_range_len). pose proof (rank_bounds _ _ Rw). pose proof (rank_bounds _ _ Hv).
        assert (j0 = i0) by nia. subst j0. f_equal. apply (rank_inj sh); auto. lia. }
      subst w. rewrite <- Pw. rewrite Z.mul_comm, Z.div_mul by lia. lia.
  - destruct (nth_error (all_idx (n :: sh)) k) as [v|]; [discriminate R|reflexivity].
Qed.

Lemma packed_8 : forall shape strides, packed shape strides -> Forall (fun s => (8 | s)) strides.
Proof.
  induction shape as [|d sh IH]; intros [|s st] H; try destruct H; constructor; auto.
  destruct H as [->|[_ [w [-> _]]]]; apply Z.divide_factor_l.
Qed.
Lemma packed_len : forall shape strides, packed shape strides -> length shape = length strides.
Proof. induction shape as [|d sh IH]; intros [|s st] H; try destruct H; auto. cbn [length]. f_equal. now apply IH. Qed.
Lemma parse_8 : forall axes b idx p, parse_loop b axes idx = Ok p -> Forall (fun x => (8 | snd x)) axes -> Forall (fun s => (8 | s)) (p_strides p).
Proof.
  induction axes as [|[d st] ax IH]; intros b [|[z|s] r] p E H; cbn [parse_loop] in E; try discriminate E.
  - assert (p = Parsed [] [] 0 None) by congruence. subst p. constructor.
  - assert (p = Parsed [] [] 0 None) by congruence. subst p. constructor.
  - inversion H as [|? ? H1 H2]; subst. destruct b; [discriminate E|].
    destruct (_ || _); [discriminate E|]. destruct (parse_loop false ax r) as [q| |] eqn:Eq; try discriminate E. cbn [rbind] in E.
    pose proof (IH _ _ _ Eq H2) as I. assert (Ep : p_strides p = p_strides q) by (injection E as <-; reflexivity). now rewrite Ep.
  - inversion H as [|? ? H1 H2]; subst. cbn [snd] in H1. destruct (sstep s =? 0); [discriminate E|]. destruct (sstep s <? 0); [discriminate E|].
    destruct b.
    + destruct (parse_loop false ax r) as [q| |] eqn:Eq; try discriminate E. cbn [rbind] in E.
      pose proof (IH _ _ _ Eq H2) as I. assert (Ep : p_strides p = sstep s * st :: p_strides q) by (injection E as <-; reflexivity). rewrite Ep.
      constructor; [now apply Z.divide_mul_r|exact I].
    + destruct (fit s d) as [f| |]; try discriminate E. cbn [rbind] in E. destruct (slice_size f) as [k| |]; try discriminate E. cbn [rbind] in E.
      destruct (parse_loop false ax r) as [q| |] eqn:Eq; try discriminate E. cbn [rbind] in E.
      pose proof (IH _ _ _ Eq H2) as I. assert (Ep : p_strides p = sstep f * st :: p_strides q) by (injection E as <-; reflexivity). rewrite Ep.
      constructor; [now apply Z.divide_mul_r|exact I].
Qed.

Lemma selected_range : forall shape idx, accepts shape idx -> Forall (fun d => 0 <= d <= SMAX) shape -> Forall (fun o => 0 <= o < prod shape) (selected shape idx).
Proof.
  induction shape as [|d sh IH]; intros idx Ha Hd; inversion Ha as [|? i ? r Hi Hr]; subst; cbn [selected].
  - repeat constructor; cbn; lia.
  - inversion Hd as [|? ? D1 D2]; subst. specialize (IH r Hr D2). rewrite Forall_forall in IH |- *. intros o Ho.
    apply in_flat_map in Ho as (x & Hx & Ho). apply in_map_iff in Ho as (y & <- & Hy). specialize (IH y Hy).
    assert (Rx : 0 <= x < d).
    { destruct i as [z|s]; cbn [chosen axis_ok] in *.
      - destruct Hx as [<-|[]]. unfold py_norm. destruct (Z.ltb_spec z 0); lia.
      - apply filter_In in Hx as [Hx _]. now apply in_zseq. }
    cbn [prod]. nia.
Qed.

(** Choosing everything. *)
Lemma filter_len {A} (f : A -> bool) l : (length (filter f l) <= length l)%nat.
Proof. induction l as [|x l IH]; cbn [filter]; [lia|]. destruct (f x); cbn [length]; lia. Qed.
Lemma chosen_len d s : 0 <= d -> Z.of_nat (length (chosen d (ISlice s))) <= d.
Proof. intros H. assert (G : (length (chosen d (ISlice s)) <= length (zseq d))%nat) by apply filter_len. rewrite zseq_length in G. lia. Qed.
Lemma sel_le : forall shape idx, accepts shape idx -> Forall (fun d => 0 <= d) shape -> Forall (fun d => 0 <= d) (sel_shape shape idx) /\ prod (sel_shape shape idx) <= prod shape.
Proof.
  induction shape as [|d sh IH]; intros idx Ha Hd; inversion Ha as [|? i ? r Hi Hr]; subst; cbn [sel_shape]; [split; [constructor|cbn; lia]|].
  inversion Hd as [|? ? D1 D2]; subst. destruct (IH r Hr D2) as [I1 I2]. pose proof (prod_nonneg _ I1). pose proof (prod_nonneg _ D2).
  destruct i as [z|s]; cbn [prod axis_ok] in *.
  - split; [auto|]. assert (1 * prod sh <= d * prod sh) by (apply Z.mul_le_mono_nonneg_r; lia). lia.
  - split; [constructor; [lia|auto]|].
    pose proof (chosen_len d s ltac:(lia)). nia.
Qed.
Lemma filter_full {A} (f : A -> bool) l : length (filter f l) = length l -> filter f l = l.
Proof.
  assert (G : forall l, (length (filter f l) <= length l)%nat) by (clear; intros l; induction l as [|x l IH]; cbn [filter]; [lia|]; destruct (f x); cbn [length]; lia).
  induction l as [|x l IH]; auto. cbn [filter]. destruct (f x); cbn [length]; intros H.
  - f_equal. apply IH. lia.
  - specialize (G l). lia.
Qed.
Lemma sel_full : forall shape idx, accepts shape idx -> Forall (fun d => 1 <= d) shape -> prod (sel_shape shape idx) = prod shape -> selected shape idx = zseq (prod shape).
Proof.
  induction shape as [|d sh IH]; intros idx Ha Hd E; inversion Ha as [|? i ? r Hi Hr]; subst; cbn [selected]; [reflexivity|].
  inversion Hd as [|? ? D1 D2]; subst. destruct (sel_le sh r Hr ltac:(eapply Forall_impl; [|exact D2]; cbn; intros; lia)) as [I1 I2]. pose proof (prod_nonneg _ I1).
  assert (P1 : 1 <= prod sh) by (clear - D2; induction D2; cbn [prod]; nia).
  assert (G : chosen d i = zseq d /\ prod (sel_shape sh r) = prod sh).
  { destruct i as [z|s]; cbn [sel_shape prod] in E.
    - assert (d = 1) by nia. subst d. split; [|nia]. cbn [chosen axis_ok] in *. unfold py_norm. destruct (Z.ltb_spec z 0).
      + replace (z + 1) with 0 by lia. reflexivity.
      + replace z with 0 by lia. reflexivity.
    - assert (Hc : (length (chosen d (ISlice s)) <= length (zseq d))%nat).
      { assert (G : forall (f : Z -> bool) l, (length (filter f l) <= length l)%nat) by (clear; intros f l; induction l as [|x l IH]; cbn [filter]; [lia|]; destruct (f x); cbn [length]; lia). apply G. }
      rewrite zseq_length in Hc. set (c := Z.of_nat (length (chosen d (ISlice s)))) in *. assert (Hc' : 0 <= c <= d) by lia.
      assert (c = d) by nia. split; [|nia]. cbn [chosen]. apply filter_full. rewrite zseq_length. unfold c in *. cbn [chosen] in *. lia. }
  destruct G as [-> G]. rewrite (IH r Hr D2 G). cbn [prod]. apply zseq_mul; lia.
Qed.
