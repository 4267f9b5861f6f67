(** The geometry of a contiguous view of an array that changes size; the node. *)
From Verif Require Import Base SliceModel SliceSpec ShapeModel ShapeSpec ShapeProofs ShapeProps StateDataModel StateDataSpec Replay NodeSpec NodeShape NodeLib BinaryModel BinaryProofs BasicModel BasicSpec BasicProofs BasicProps ViewModel ViewSpec ViewProofs ViewProofs2 ViewProofs3 ViewProofs4 ViewProofs5.
Local Open Scope Z_scope.

Definition clip (d b : Z) : Z := Z.min d (Z.max 0 (py_norm d b)).
Lemma fit1 d s : sstep s = 1 -> 0 <= d <= SMAX ->
  fit s d = Ok (Slice (clip d (sstart s)) (clip d (sstop s)) 1) /\
  slice_size (Slice (clip d (sstart s)) (clip d (sstop s)) 1) = Ok (Z.max 0 (clip d (sstop s) - clip d (sstart s))).
Proof.
  intros Hs Hd. assert (Hb : forall b, fit_bound b 1 d = clip d b).
  { intros b. unfold fit_bound, clip, py_norm. destruct (Z.ltb_spec b 0).
    - destruct (Z.ltb_spec (b + d) 0); cbn; destruct (Z.ltb_spec (b + d) 0); lia.
    - change (1 <? 0) with false. destruct (Z.leb_spec d b); cbn; lia. }
  unfold fit, mk_slice. cbn [value_or]. rewrite Hs, !Hb. change (1 =? 0) with false. cbn iota. split; [reflexivity|].
  assert (R1 : 0 <= clip d (sstart s) <= d) by (unfold clip; lia). assert (R2 : 0 <= clip d (sstop s) <= d) by (unfold clip; lia).
  destruct (Z.le_gt_cases (clip d (sstart s)) (clip d (sstop s))).
  - rewrite size_step1 by lia. f_equal. lia.
  - unfold slice_size. cbn [sstart sstop sstep]. change (1 <? 0) with false. cbn iota. destruct (Z.ltb_spec (clip d (sstart s)) (clip d (sstop s))); [lia|]. f_equal. lia.
Qed.

Section CV.
Context {V : Type}.
Variable veqb : V -> V -> bool.
Variable spec : forall x y, reflect (x = y) (veqb x y).
Notation replay := (replay veqb).

(** ** The cache *)
Lemma grown_replay (new pre : list V) : replay pre (cache_grown (length pre) new) = Some (pre ++ new).
Proof.
  revert pre. induction new as [|x new IH]; intros pre; cbn [cache_grown]; [now rewrite app_nil_r, rp_nil|].
  pose proof (rp_place (veqb := veqb) pre (length pre) x eq_refl) as E. rewrite (rp_cons _ _ _ _ E). specialize (IH (pre ++ [x])). rewrite app_length in IH. cbn [length] in IH.
  replace (length pre + 1)%nat with (S (length pre)) in IH by lia. rewrite IH, <- app_assoc. reflexivity.
Qed.
Lemma shrunk_replay (cs pre : list V) : replay (pre ++ cs) (cache_shrunk (length pre) cs) = Some pre.
Proof.
  revert pre. induction cs as [|x cs IH]; intros pre; cbn [cache_shrunk]; [now rewrite app_nil_r, rp_nil|].
  specialize (IH (pre ++ [x])). rewrite app_length, <- app_assoc in IH. cbn [length app] in IH. replace (length pre + 1)%nat with (S (length pre)) in IH by lia.
  eapply rp_snoc; [exact IH|]. now apply (rp_remove spec).
Qed.
Lemma overlap_replay (cache new pre : list V) : let k := Nat.min (length cache) (length new) in
  replay (pre ++ cache) (cache_overlap veqb (length pre) cache new) = Some (pre ++ firstn k new ++ skipn k cache).
Proof.
  revert new pre. induction cache as [|x cs IH]; intros [|y new] pre; cbn [cache_overlap length Nat.min firstn skipn app]; try (now rewrite rp_nil).
  specialize (IH new (pre ++ [y])). cbv zeta in IH. rewrite app_length in IH. cbn [length] in IH. replace (length pre + 1)%nat with (S (length pre)) in IH by lia.
  rewrite <- !app_assoc in IH. cbn [app] in IH. destruct (spec x y) as [->|N]; [exact IH|].
  pose proof (rp_change spec (pre ++ x :: cs) (length pre) x y) as E. rewrite nth_error_app2, Nat.sub_diag in E by lia. specialize (E eq_refl).
  rewrite (rp_cons _ _ _ _ E). clear E. assert (El : lset (length pre) y (pre ++ x :: cs) = pre ++ y :: cs).
  { clear. induction pre as [|z pre IH]; [reflexivity|]. cbn [length app lset]. now rewrite IH. }
  rewrite El. exact IH.
Qed.
Lemma cache_replay (cache new : list V) : replay cache (cache_diff veqb cache new) = Some new.
Proof.
  unfold cache_diff. set (k := Nat.min (length cache) (length new)). pose proof (overlap_replay cache new []) as O. cbn [length app] in O. fold k in O.
  rewrite (rp_app _ _ _ _ O). clear O. destruct (Nat.le_gt_cases (length cache) (length new)) as [H|H].
  - assert (k = length cache) by lia. rewrite (skipn_all2 cache) by lia. cbn [cache_shrunk]. rewrite !app_nil_r.
    pose proof (grown_replay (skipn k new) (firstn k new)) as G. rewrite firstn_length in G. replace (Nat.min k (length new)) with k in G by lia. rewrite G. now rewrite firstn_skipn.
  - assert (k = length new) by lia. rewrite (skipn_all2 new) by lia. cbn [cache_grown app]. rewrite firstn_all2 by lia.
    rewrite H0. apply shrunk_replay.
Qed.

(** ** Geometry *)
Section Dyn.
Variable sh st0 : list Z.
Variable s0 : Z.
Variable s : slice.
Variable r : list sidx.
Variable p : parsed.
Variable dbg : bool.
Hypothesis Pos : Forall (fun d => 0 < d <= SMAX) sh.
Hypothesis Pk : packed (-1 :: sh) (s0 :: st0).
Hypothesis New : basic_new (-1) (-1 :: sh) (s0 :: st0) true (ISlice s :: r) = Ok (p, true).
Hypothesis Inner : Forall (fun d => 0 < d) (tl (p_shape p)).
Let ps := -1 :: sh.
Let idx := ISlice s :: r.
Let R := prod sh.

Lemma dy_facts : exists sh1 st1, p = Parsed (-1 :: sh1) (8 * R :: st1) 0 (Some s) /\ sstep s = 1 /\ Forall (fun d => 0 < d) sh1 /\ prod sh1 = R /\ length st1 = length sh1 /\
  Forall (fun z => (8 | z)) st1 /\ accepts sh r /\ selected sh r = zseq R /\ 0 < R /\ forall n, 0 <= n -> layout (n :: sh1) (8 * R :: st1).
Proof.
  unfold basic_new in New. destruct (parse _ _ _ _ _) as [p'| |] eqn:E; try discriminate New. cbn [rbind] in New.
  destruct (is_contiguous (p_shape p') (p_strides p')) as [b|] eqn:Ec; [|discriminate New].
  assert (E1 : p' = p) by congruence. assert (E2 : b = true) by congruence. rewrite E2 in Ec. clear E2. rewrite E1 in E, Ec. clear E1.
  unfold parse in E. destruct (Nat.ltb_spec (length (ISlice s :: r)) (length (-1 :: sh))); [discriminate E|].
  destruct (Nat.ltb_spec (length (-1 :: sh)) (length (ISlice s :: r))); [discriminate E|]. cbn [negb] in E. change (-1 <? 0) with true in E. cbn [combine parse_loop] in E.
  destruct (Z.eqb_spec (sstep s) 0); [discriminate E|]. destruct (Z.ltb_spec (sstep s) 0); [discriminate E|].
  destruct (parse_loop false (combine sh st0) r) as [p1| |] eqn:Ep; try discriminate E. cbn [rbind] in E.
  cbn [packed] in Pk. destruct Pk as [Hs0 Pk']. assert (Es0 : s0 = 8 * R) by (destruct Hs0 as [?|[? _]]; [assumption|discriminate]).
  assert (D1 : Forall (fun d => 0 <= d <= SMAX) sh) by (eapply Forall_impl; [|exact Pos]; cbn; intros; lia).
  assert (D2 : Forall (fun d => 0 <= d) sh) by (eapply Forall_impl; [|exact Pos]; cbn; intros; lia).
  assert (D3 : Forall (fun d => 1 <= d) sh) by (eapply Forall_impl; [|exact Pos]; cbn; intros; lia).
  cbn [length] in *.
  assert (Ep0 : parse 0 sh st0 true r = Ok p1).
  { unfold parse. destruct (Nat.ltb_spec (length r) (length sh)); [lia|]. destruct (Nat.ltb_spec (length sh) (length r)); [lia|]. exact Ep. }
  destruct (C36_selects 0 sh st0 r p1 ltac:(lia) Pk' D1 Ep0) as (Ha & Hs & He).
  destruct (parse_ok sh st0 r Ha Pk' D1) as (p2 & E2 & _ & _ & _ & L). assert (E3 : p2 = p1) by congruence. rewrite E3 in L. clear E2 E3.
  assert (Ep' : p = Parsed (-1 :: p_shape p1) (sstep s * s0 :: p_strides p1) (p_start p1) (Some s)) by congruence. clear E.
  rewrite Ep' in Inner, Ec. cbn [p_shape tl] in Inner. cbn [p_shape p_strides] in Ec.
  assert (Lay := proj1 (C23_contiguous_dynamic (p_shape p1) (sstep s * s0) (p_strides p1) (eq_sym L) Inner) Ec).
  destruct (sel_le sh r Ha D2) as [S1 S2]. rewrite <- Hs in S1, S2. assert (R0 : 0 < R) by (apply prod_pos; eapply Forall_impl; [|exact Pos]; cbn; intros; lia).
  assert (P0 : 0 < prod (p_shape p1)) by now apply prod_pos.
  assert (Key : sstep s * R = prod (p_shape p1)).
  { set (z := map (fun _ => 0) (p_shape p1)).
    assert (Iz : in_range (2 :: p_shape p1) (1 :: z)).
    { apply Forall2_cons; [lia|]. unfold z. clear - Inner. induction Inner as [|d l Hd Hl IH]; cbn [map]; [apply Forall2_nil|apply Forall2_cons; [lia|exact (IH Hl)]]. }
    pose proof (Lay 2 ltac:(lia) _ Iz) as E. rewrite rank_cons in E by (unfold z; now rewrite map_length).
    assert (O : forall l, offset l z = 0).
    { unfold z. generalize (p_shape p1). intros m. induction m as [|d m IH]; intros [|x l]; cbn [map offset]; try reflexivity. rewrite IH. lia. }
    assert (Rz : rank (p_shape p1) z = 0).
    { unfold z. clear. generalize (p_shape p1). intros m. induction m as [|d m IH]; cbn [map]; [reflexivity|]. rewrite rank_cons by now rewrite map_length. rewrite IH. lia. }
    cbn [offset] in E. rewrite O, Rz in E. rewrite Es0 in E. nia. }
  assert (St1 : sstep s = 1) by (fold R in S2; nia).
  assert (Pr : prod (p_shape p1) = R) by (rewrite St1 in Key; lia).
  assert (Sel : selected sh r = zseq R) by (apply sel_full; [exact Ha|exact D3|]; rewrite <- Hs; exact Pr).
  assert (Start : p_start p1 = 0).
  { rewrite Sel in He. unfold elements in He.
    destruct (all_idx (p_shape p1)) as [|v l] eqn:Ea.
    - exfalso. pose proof (f_equal (@length Z) He) as Ln. cbn [map length] in Ln. rewrite zseq_length in Ln. lia.
    - assert (Ev : v = map (fun _ => 0) (p_shape p1)).
      { assert (Inn := Inner). clear - Ea Inn. revert v l Ea. induction Inn as [|d m Hd Hm IH]; intros v l Ea; [cbn in Ea; injection Ea as <- _; reflexivity|].
        cbn [all_idx] in Ea. destruct (all_idx m) as [|w l'] eqn:Em.
        - exfalso. revert Ea. generalize (zseq d). intros q. induction q as [|y q IHq]; cbn [flat_map map app]; [discriminate|exact IHq].
        - specialize (IH w l' eq_refl). replace d with (1 + (d - 1)) in Ea by lia. rewrite zseq_app in Ea by lia. change (zseq 1) with [0] in Ea. cbn [app flat_map map] in Ea.
          injection Ea as <- _. cbn [map]. now rewrite IH. }
      assert (O : forall l, offset l v = 0).
      { rewrite Ev. generalize (p_shape p1). intros m. induction m as [|d m IH]; intros [|x q]; cbn [map offset]; try reflexivity. rewrite IH. lia. }
      cbn [map] in He. rewrite O in He. replace R with (1 + (R - 1)) in He by lia. rewrite zseq_app in He by lia. change (zseq 1) with [0] in He. cbn [app] in He.
      assert (p_start p1 + 0 / 8 = 0) by congruence. change (0 / 8) with 0 in *. lia. }
  exists (p_shape p1), (p_strides p1). rewrite Ep', St1, Start, Es0, Z.mul_1_l. rewrite St1, Es0, Z.mul_1_l in Lay.
  split; [reflexivity|]. split; [reflexivity|]. split; [exact Inner|]. split; [exact Pr|]. split; [exact L|]. split; [|auto].
  eapply parse_8; [exact Ep|]. pose proof (packed_8 _ _ Pk') as P8. clear - P8. revert st0 P8. induction sh as [|d t IH]; intros [|x st] P8; cbn [combine]; constructor.
  - inversion P8; assumption.
  - apply IH. now inversion P8.
Qed.

Lemma dy_fold : fold_left Z.mul sh 1 = R.
Proof. rewrite fold_mul. unfold R. lia. Qed.
Lemma dy_vdyn : vdyn p = true.
Proof. destruct dy_facts as (sh1 & st1 & -> & _). reflexivity. Qed.
Lemma dy_step1 : sstep s = 1.
Proof. destruct dy_facts as (sh1 & st1 & _ & H & _). exact H. Qed.
Lemma dy_R : 0 < R.
Proof. destruct dy_facts as (sh1 & st1 & _ & _ & _ & _ & _ & _ & _ & _ & H & _). exact H. Qed.

(** Rows of [a], first row shown, rows shown. *)
Definition nrows (a : list V) : Z := rows ps a.
Definition lo (a : list V) : Z := clip (nrows a) (sstart s).
Definition cnt (a : list V) : Z := Z.max 0 (clip (nrows a) (sstop s) - lo a).
Definition shown (a : list V) : list V := sub a (lo a * R) (cnt a * R).
Definition bounded (a : list V) : Prop := fits ps a /\ Z.of_nat (length a) < 2147483648.

Lemma dy_rows a : fits ps a -> Z.of_nat (length a) = nrows a * R /\ 0 <= nrows a.
Proof.
  intros (k & H1 & H2). cbn [tl ps] in H2. fold R in H2. pose proof dy_R. unfold nrows, rows. cbn [tl ps]. rewrite dy_fold, H2, Z.div_mul by lia. lia.
Qed.
Lemma dy_bounds a : bounded a -> 0 <= nrows a < 2147483648 /\ 0 <= lo a <= nrows a /\ 0 <= cnt a <= nrows a /\ (0 < cnt a -> lo a + cnt a <= nrows a) /\
  0 <= lo a * R <= Z.of_nat (length a) /\ 0 <= cnt a * R <= Z.of_nat (length a) /\ (0 < cnt a * R -> lo a * R + cnt a * R <= Z.of_nat (length a)) /\
  fit s (nrows a) = Ok (Slice (lo a) (clip (nrows a) (sstop s)) 1) /\ slice_size (Slice (lo a) (clip (nrows a) (sstop s)) 1) = Ok (cnt a).
Proof.
  intros [F B]. destruct (dy_rows a F) as [E N]. pose proof dy_R as Hr.
  assert (Nb : nrows a < 2147483648) by nia.
  assert (L : 0 <= lo a <= nrows a) by (unfold lo, clip; lia).
  assert (C : 0 <= clip (nrows a) (sstop s) <= nrows a) by (unfold clip; lia).
  assert (C1 : 0 <= cnt a <= nrows a) by (unfold cnt; lia). assert (C2 : 0 < cnt a -> lo a + cnt a <= nrows a) by (unfold cnt in *; lia).
  destruct (fit1 (nrows a) s dy_step1 ltac:(unfold SMAX; lia)) as [F1 F2]. fold (lo a) in F1, F2. fold (cnt a) in F2.
  repeat match goal with |- _ /\ _ => split end; auto; try nia.
Qed.
Lemma shown_len a : bounded a -> Z.of_nat (length (shown a)) = cnt a * R.
Proof. intros Hb. destruct (dy_bounds a Hb) as (_ & _ & _ & _ & H1 & H2 & H3 & _). apply sub_len; lia. Qed.

Lemma sub_pick (a : list V) o k : 0 <= o -> 0 <= k -> (0 < k -> o + k <= Z.of_nat (length a)) -> pick a (map (fun j => o + j) (zseq k)) = Some (sub a o k).
Proof.
  intros H1 H2 H3. assert (F : Forall (fun z => 0 <= z < Z.of_nat (length a)) (map (fun j => o + j) (zseq k))).
  { apply Forall_forall. intros z Hz. apply in_map_iff in Hz. destruct Hz as (j & <- & Hj). apply in_zseq in Hj. lia. }
  destruct (pick_some a _ F) as (w & E & L & N). rewrite E. f_equal. apply nth_error_ext. intros j. rewrite N, sub_nth, nth_error_map, nth_zseq.
  destruct (Nat.ltb_spec j (Z.to_nat k)); cbn [option_map]; [f_equal; lia|reflexivity].
Qed.

Lemma dy_fun a : bounded a -> view_fun ps idx [a] = Some (shown a).
Proof.
  intros Hb. destruct (dy_bounds a Hb) as (N1 & L & C & C1 & H1 & H2 & H3 & F1 & F2). destruct Hb as [F B].
  destruct dy_facts as (sh1 & st1 & _ & S1 & _ & _ & _ & _ & Ha & Sel & R0 & _).
  unfold view_fun. destruct (Z.ltb_spec (Z.of_nat (length a)) 2147483648); [|lia]. unfold cur_shape. cbn [dynamic ps tl]. change (-1 <? 0) with true. cbn iota.
  replace (Z.of_nat (length a) / prod sh) with (nrows a) by (unfold nrows, rows; cbn [tl ps]; now rewrite dy_fold).
  cbn [selected idx]. fold R. rewrite Sel.
  destruct (fit_slice (nrows a) s ltac:(lia) ltac:(unfold SMAX; lia)) as (f & k & G1 & G2 & _ & _ & _ & _ & _ & G3). rewrite G3.
  assert (E1 : f = Slice (lo a) (clip (nrows a) (sstop s)) 1) by congruence. rewrite E1 in G2 |- *. assert (E2 : k = cnt a) by congruence. rewrite E2. cbn [sstart]. rewrite S1.
  rewrite flat_map_map. unfold shown. rewrite <- (sub_pick a (lo a * R) (cnt a * R)) by (try lia; exact H3). unfold pick. f_equal. f_equal.
  rewrite <- (zseq_mul (cnt a) R) by lia. rewrite map_flat_map. apply flat_map_ext_in. intros x _. rewrite map_map. apply map_ext. intros y. ring.
Qed.

Lemma dy_size st a : bounded a -> b_n0 st = cnt a -> bsize (V := V) p st = cnt a * R.
Proof.
  intros Hb E. unfold bsize. rewrite dy_vdyn, E. destruct (dy_bounds a Hb) as (N1 & L & C & C1 & H1 & H2 & H3 & F1 & F2). destruct Hb as [F B].
  destruct dy_facts as (sh1 & st1 & -> & _ & _ & P1 & _). cbn [p_shape tl shape_to_size]. destruct (Z.ltb_spec (cnt a) 0); [lia|].
  rewrite fold_mul, Z.mul_1_l. cbn [prod]. rewrite P1. apply to_int_small. lia.
Qed.
Lemma dy_view st a : bounded a -> b_n0 st = cnt a -> b_first st = Slice (lo a) (clip (nrows a) (sstop s)) 1 -> bview p true st a = Some (shown a).
Proof.
  intros Hb E1 E2. unfold bview. rewrite (dy_size st a Hb E1). unfold bbegin, bbuff. rewrite dy_vdyn, E2. cbn [sstart].
  destruct (dy_bounds a Hb) as (N1 & L & C & C1 & H1 & H2 & H3 & F1 & F2).
  destruct dy_facts as (sh1 & st1 & -> & _ & Ps & P1 & Ls & M & _ & _ & R0 & Lay). unfold dynamic_start. cbn [p_start p_shape p_strides hd].
  replace (Z.quot (lo a * (8 * R)) itemsize) with (lo a * R) by (unfold itemsize; replace (lo a * (8 * R)) with (lo a * R * 8) by ring; now rewrite Z.quot_mul).
  rewrite Z.add_0_l. rewrite <- (map_map (fun k => it_ptr (Nat.iter k it_inc (it_begin true (lo a * R) (-1 :: sh1) (8 * R :: st1)))) (at_ptr a)).
  rewrite <- P1 at 1. rewrite (pointers true (lo a * R) (-1) (cnt a) sh1 (8 * R) st1); [|lia|exact Ps|now symmetry|constructor; [exists R; ring|exact M]|intros _; apply Lay; lia].
  assert (Dn : Forall (fun d => 0 <= d) (cnt a :: sh1)) by (constructor; [lia|]; eapply Forall_impl; [|exact Ps]; cbn; intros; lia).
  replace (map (fun v => lo a * R + offset (8 * R :: st1) v / 8) (all_idx (cnt a :: sh1))) with (map (fun j => lo a * R + j) (zseq (cnt a * R))).
  - rewrite at_pick; [apply sub_pick; try lia; exact H3|]. apply Forall_forall. intros z Hz. apply in_map_iff in Hz. destruct Hz as (j & <- & Hj). apply in_zseq in Hj. lia.
  - rewrite <- P1. change (cnt a * prod sh1) with (prod (cnt a :: sh1)). rewrite <- (all_idx_rank _ Dn), map_map. apply map_ext_in. intros v Hv.
    pose proof (all_idx_range _ Dn) as Rg. rewrite Forall_forall in Rg. rewrite P1. rewrite (Lay (cnt a) ltac:(lia) v (Rg v Hv)). f_equal. rewrite Z.mul_comm. now rewrite Z.div_mul.
Qed.
Lemma dy_update st a : bounded a -> update_dynamic_shape ps p st a = Ok (BSt (b_diff st) (b_prev st) (cnt a) (Slice (lo a) (clip (nrows a) (sstop s)) 1) (b_cache st)).
Proof.
  intros Hb. destruct (dy_bounds a Hb) as (N1 & L & C & C1 & H1 & H2 & H3 & F1 & F2). unfold update_dynamic_shape.
  assert (Ea : p_axis0 p = Some s) by (destruct dy_facts as (sh1 & st1 & -> & _); reflexivity). rewrite Ea. fold (nrows a). rewrite F1. cbn [rbind]. rewrite F2. reflexivity.
Qed.

Definition dclean (a : list V) (st : bst) : Prop :=
  bounded a /\ b_diff st = [] /\ b_n0 st = cnt a /\ b_first st = Slice (lo a) (clip (nrows a) (sstop s)) 1 /\ b_prev st = cnt a * R /\ (sstart s < 0 -> b_cache st = shown a).

Lemma dyn_node_ok :
  (forall st old q, dclean old st -> pin_ok veqb ps old q -> bounded (pview q) ->
     exists d, view_prop veqb dbg ps p true st q = update_dynamic_shape ps p (BSt d (b_prev st) (b_n0 st) (b_first st) (b_cache st)) (pview q) /\ replay (shown old) d = Some (shown (pview q))) ->
  vnode_ok veqb (view_node veqb dbg ps p true) (view_fun ps idx).
Proof.
  intros Hp. assert (Ea : p_axis0 p = Some s) by (destruct dy_facts as (sh1 & st1 & -> & _); reflexivity).
  assert (Sh : exists sh1, p_shape p = -1 :: sh1 /\ prod sh1 = R) by (destruct dy_facts as (sh1 & st1 & -> & _ & _ & P1 & _); exists sh1; auto). destruct Sh as (sh1 & Sh & P1).
  assert (Bd : forall (a w : list V), fits ps a -> view_fun ps idx [a] = Some w -> bounded a).
  { intros a w Fa Ew. split; [exact Fa|]. unfold view_fun in Ew. destruct (Z.ltb_spec (Z.of_nat (length a)) 2147483648); [assumption|discriminate]. }
  assert (Ft : forall a : list V, bounded a -> fits (p_shape p) (shown a)).
  { intros a Hb. rewrite Sh. unfold fits, fits_len. cbn [dynamic tl]. change (-1 <? 0) with true. cbn iota. exists (cnt a). rewrite P1, (shown_len a Hb). split; [unfold cnt; lia|reflexivity]. }
  constructor. exists (fun ins st => exists a, ins = [a] /\ dclean a st). split; [|split].
  - intros ins v Hf HF. cbn [vn_pre vn_shape view_node] in *. inversion Hf as [|? a ? rr Fa Hr]; subst. inversion Hr; subst. pose proof (Bd a v Fa HF) as Hb.
    assert (v = shown a) by (pose proof (dy_fun a Hb); congruence). subst v. split; [now apply Ft|].
    cbn [map vn_init view_node one still pview]. unfold view_init. rewrite dy_vdyn. rewrite dy_update by exact Hb. cbn [rbind b_diff b_prev b_n0 b_first b_cache]. rewrite Ea.
    rewrite (dy_size _ a Hb) by reflexivity. destruct (Z.ltb_spec (sstart s) 0).
    + rewrite (dy_view _ a Hb) by reflexivity. cbn [vget]. eexists. split; [reflexivity|]. exists a. split; [reflexivity|]. repeat split; auto; apply Hb.
    + eexists. split; [reflexivity|]. exists a. split; [reflexivity|]. unfold dclean. cbn [b_diff b_prev b_n0 b_first b_cache]. split; [exact Hb|]. repeat split; auto. intros; lia.
  - intros ins st (a & -> & Hb & D1 & D2 & D3 & D4 & D5). exists (shown a). split; [now apply dy_fun|].
    cbn [map vn_out view_node still pview]. rewrite (dy_view st a Hb D2 D3). cbn [option_map]. unfold bsize_diff. rewrite dy_vdyn, D1, (dy_size st a Hb D2), D4.
    unfold still. repeat f_equal. lia.
  - intros ins st v pins v' (a & -> & Cl) HF HP _ HF'. cbn [vn_pre view_node combine] in HP.
    inversion HP as [|? q ? rr Pl HP1]; subst. inversion HP1; subst. cbn [fst snd map] in *.
    pose proof (Bd (pview q) v' (po_new _ _ _ _ Pl) HF') as Hq. destruct (Hp st a q Cl Pl Hq) as (d & E1 & E2).
    destruct Cl as (Hb & D1 & D2 & D3 & D4 & D5).
    assert (v = shown a) by (pose proof (dy_fun a Hb); congruence). assert (v' = shown (pview q)) by (pose proof (dy_fun (pview q) Hq); congruence). subst v v'.
    rewrite dy_update in E1 by exact Hq. cbn [b_diff b_prev b_n0 b_first b_cache] in E1.
    eexists. split; [cbn [vn_prop view_node one]; exact E1|]. cbn [vn_out vn_commit vn_revert vn_shape view_node map one still pview]. split; [|split].
    + rewrite (dy_view _ (pview q) Hq) by reflexivity. cbn [option_map]. eexists. split; [reflexivity|]. split; [reflexivity|]. constructor; cbn [pview pdiff psdiff b_diff].
      * now apply Ft.
      * now apply Ft.
      * exact E2.
      * unfold bsize_diff. rewrite dy_vdyn. rewrite (dy_size _ (pview q) Hq) by reflexivity. cbn [b_prev]. rewrite !shown_len by assumption. lia.
      * intros Hd. rewrite Sh in Hd. discriminate Hd.
    + unfold view_commit. rewrite (dy_view _ (pview q) Hq) by reflexivity. cbn [vget]. rewrite (dy_size _ (pview q) Hq) by reflexivity.
      eexists. split; [reflexivity|]. exists (pview q). split; [reflexivity|]. repeat split; auto; apply Hq.
    + unfold view_revert. cbn [b_prev b_n0 b_first b_cache]. rewrite dy_vdyn. rewrite dy_update by exact Hb. cbn [rbind b_diff b_prev b_n0 b_first b_cache]. rewrite Ea.
      destruct (Z.ltb_spec (sstart s) 0) as [Hn|Hn].
      * unfold chk. cbn [negb]. rewrite andb_false_r. rewrite D4, (D5 Hn), (shown_len a Hb). destruct (Z.ltb_spec (cnt a * R) (cnt a * R)); [lia|].
        eexists. split; [reflexivity|]. exists a. split; [reflexivity|]. unfold dclean. cbn [b_diff b_prev b_n0 b_first b_cache]. split; [exact Hb|]. repeat split; auto.
        intros _. apply firstn_all2. pose proof (shown_len a Hb). lia.
      * eexists. split; [reflexivity|]. exists a. split; [reflexivity|]. unfold dclean. cbn [b_diff b_prev b_n0 b_first b_cache]. split; [exact Hb|]. repeat split; auto; try (intros; lia).
Qed.

(** ** Negative start: compared with the cache *)
Theorem cached_ok : sstart s < 0 -> (dbg = true -> R = 1) -> vnode_ok veqb (view_node veqb dbg ps p true) (view_fun ps idx).
Proof.
  intros Hn Hd. apply dyn_node_ok. intros st old q (Hb & D1 & D2 & D3 & D4 & D5) Pl Hq.
  assert (Ea : p_axis0 p = Some s /\ p_start p = 0) by (destruct dy_facts as (sh1 & st1 & -> & _); auto). destruct Ea as [Ea E0].
  exists (cache_diff veqb (shown old) (shown (pview q))). split; [|apply cache_replay].
  unfold view_prop. rewrite D1, dy_vdyn, Ea. cbn [andb]. rewrite chk_true by reflexivity. destruct (Z.ltb_spec (sstart s) 0); [|lia].
  unfold prop_cached. rewrite E0. rewrite chk_true by reflexivity. rewrite (po_sdiff _ _ _ _ Pl).
  replace (Z.of_nat (length (pview q)) - (Z.of_nat (length (pview q)) - Z.of_nat (length old))) with (Z.of_nat (length old)) by lia.
  destruct (fit1 (Z.of_nat (length old)) s dy_step1 ltac:(destruct Hb; unfold SMAX; lia)) as [F1 F2]. rewrite F1. cbn [rbind]. rewrite F2. cbn [rbind].
  assert (Ck : forall k : res (@bst V), chk dbg (Z.of_nat (length (b_cache st)) =? Z.max 0 (clip (Z.of_nat (length old)) (sstop s) - clip (Z.of_nat (length old)) (sstart s))) k = k).
  { intros k. destruct dbg eqn:Edbg; [|reflexivity]. apply chk_true. apply Z.eqb_eq. rewrite (D5 Hn), (shown_len old Hb). unfold cnt, lo.
    destruct (dy_rows old (proj1 Hb)) as [E N]. rewrite (Hd eq_refl), Z.mul_1_r in E. rewrite E, (Hd eq_refl). lia. }
  rewrite Ck. clear Ck. rewrite !dy_update by exact Hq. cbn [rbind b_diff b_prev b_n0 b_first b_cache]. rewrite (dy_view _ (pview q) Hq) by reflexivity. cbn [vget].
  rewrite (D5 Hn). reflexivity.
Qed.

(** ** Other starts *)
Lemma flat_ok len : 0 <= sstart s -> 0 <= len < 2147483648 -> let n := Z.max 0 (clip len (sstop s) - clip len (sstart s)) in
  flat_slice s len = Ok (Slice (sstart s) (sstart s + n) 1) /\ sstart s + n <= Z.max (sstart s) len /\ (0 < n -> clip len (sstart s) = sstart s).
Proof.
  intros Hs Hl n. destruct (fit1 len s dy_step1 ltac:(unfold SMAX; lia)) as [F1 F2]. fold n in F2.
  assert (C2 : clip len (sstop s) <= len) by (unfold clip; lia).
  assert (C1 : clip len (sstart s) = Z.min len (sstart s)) by (unfold clip, py_norm; destruct (Z.ltb_spec (sstart s) 0); lia).
  unfold flat_slice. rewrite F1. cbn [rbind]. rewrite F2. cbn [rbind]. destruct (Z.eqb_spec n 0) as [E|E].
  - rewrite E, Z.add_0_r. split; [reflexivity|lia].
  - assert (0 < n) by lia. assert (clip len (sstart s) = sstart s) by lia. rewrite H0. split; [|split; [lia|auto]]. f_equal. f_equal. lia.
Qed.

Theorem ranged_ok : 0 <= sstart s <= SMAX -> (R = 1 \/ (sstart s = 0 /\ 2147483648 <= sstop s)) -> vnode_ok veqb (view_node veqb dbg ps p true) (view_fun ps idx).
Proof.
  intros Hs Hc. apply dyn_node_ok. intros st old q (Hb & D1 & D2 & D3 & D4 & D5) Pl Hq.
  assert (Ea : p_axis0 p = Some s /\ p_start p = 0) by (destruct dy_facts as (sh1 & st1 & -> & _); auto). destruct Ea as [Ea E0].
  unfold view_prop. rewrite D1, dy_vdyn, Ea. cbn [andb]. rewrite chk_true by reflexivity. destruct (Z.ltb_spec (sstart s) 0); [lia|].
  set (n0 := Z.max 0 (clip (Z.of_nat (length old)) (sstop s) - clip (Z.of_nat (length old)) (sstart s))).
  set (n1 := Z.max 0 (clip (Z.of_nat (length (pview q))) (sstop s) - clip (Z.of_nat (length (pview q))) (sstart s))).
  destruct (flat_ok (Z.of_nat (length old)) ltac:(lia) ltac:(destruct Hb; lia)) as (G1 & G2 & G3). fold n0 in G1, G2, G3.
  destruct (flat_ok (Z.of_nat (length (pview q))) ltac:(lia) ltac:(destruct Hq; lia)) as (K1 & K2 & K3). fold n1 in K1, K2, K3.
  assert (Sub : forall a n, bounded a -> n = Z.max 0 (clip (Z.of_nat (length a)) (sstop s) - clip (Z.of_nat (length a)) (sstart s)) -> shown a = sub a (sstart s) (sstart s + n - sstart s)).
  { intros a n Ba En. destruct (flat_ok (Z.of_nat (length a)) ltac:(lia) ltac:(destruct Ba; lia)) as (_ & _ & M3). rewrite <- En in M3.
    replace (sstart s + n - sstart s) with n by lia. unfold shown. destruct (dy_rows a (proj1 Ba)) as [E N]. destruct Hc as [Hr|[Z0 Z1]].
    - rewrite Hr, !Z.mul_1_r in *. unfold cnt, lo. rewrite <- E, <- En. destruct (Z.ltb_spec 0 n) as [Hn|Hn]; [now rewrite M3 by lia|]. unfold sub. replace (Z.to_nat n) with 0%nat by lia. reflexivity.
    - destruct Ba as [Fa Ba]. assert (Cl : forall d, 0 <= d < 2147483648 -> clip d (sstop s) = d) by (intros d Hd; unfold clip, py_norm; destruct (Z.ltb_spec (sstop s) 0); lia).
      assert (C0 : forall d, 0 <= d -> clip d (sstart s) = 0) by (intros d Hd; rewrite Z0; unfold clip, py_norm; cbn; lia). pose proof dy_R.
      assert (nrows a < 2147483648) by nia. unfold cnt, lo. rewrite Cl, C0 by lia. rewrite En, Cl, C0 by lia. rewrite Z0, Z.mul_0_l. f_equal. lia. }
  rewrite (Sub old n0 Hb eq_refl), (Sub (pview q) n1 Hq eq_refl).
  apply (prop_dyn_ok veqb spec dbg ps p s st q old (sstart s + n0) (sstart s + n1)); auto; try (destruct Hb, Hq; unfold SMAX; lia).
  - apply (po_replay _ _ _ _ Pl).
  - apply (po_sdiff _ _ _ _ Pl).
Qed.
End Dyn.
End CV.
