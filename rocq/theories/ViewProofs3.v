(** Views of fixed size. *)
From Verif Require Import Base SliceModel ShapeModel ShapeSpec ShapeProofs ShapeProps SliceSpec StateDataModel StateDataSpec Replay NodeSpec NodeShape NodeLib BinaryModel BinaryProofs BasicModel BasicSpec BasicProofs BasicProps ViewModel ViewSpec ViewProofs ViewProofs2.
Local Open Scope Z_scope.

Lemma prod_zero l : Forall (fun d => 0 <= d) l -> prod l = 0 \/ Forall (fun d => 0 < d) l.
Proof.
  induction 1 as [|d l H HF IH]; [right; constructor|]. cbn [prod]. destruct IH as [->|IH]; [left; lia|].
  destruct (Z.eq_dec d 0) as [->|N]; [left; lia|right]. constructor; [lia|exact IH].
Qed.
Lemma to_int_small z : 0 <= z < 2147483648 -> to_int z = z.
Proof. intros H. unfold to_int. rewrite Z.mod_small by lia. destruct (Z.ltb_spec z 2147483648); lia. Qed.

Section SV.
Context {V : Type}.
Variable veqb : V -> V -> bool.
Variable spec : forall x y, reflect (x = y) (veqb x y).

Definition pick (a : list V) (sel : list Z) : option (list V) := all_some (map (fun o => nth_error a (Z.to_nat o)) sel).
Lemma pick_some a sel : Forall (fun o => 0 <= o < Z.of_nat (length a)) sel ->
  exists w, pick a sel = Some w /\ length w = length sel /\ forall j, nth_error w j = match nth_error sel j with Some o => nth_error a (Z.to_nat o) | None => None end.
Proof.
  induction 1 as [|o sel Ho H (w & E & L & N)]; [exists []; repeat split; intros [|j]; reflexivity|].
  destruct (nth_error_get a (i := Z.to_nat o) ltac:(lia)) as [x Ex]. exists (x :: w). unfold pick in *. cbn [map all_some]. rewrite Ex, E. split; [reflexivity|].
  split; [cbn [length]; congruence|]. intros [|j]; cbn [nth_error]; [now rewrite Ex|apply N].
Qed.
Lemma at_pick (a : list V) l : Forall (fun o => 0 <= o) l -> map (at_ptr a) l = map (fun o => nth_error a (Z.to_nat o)) l.
Proof. intros H. apply map_ext_in. intros o Ho. rewrite Forall_forall in H. specialize (H o Ho). unfold at_ptr. destruct (Z.ltb_spec o 0); [lia|reflexivity]. Qed.

Section Static.
Variable ps strides : list Z.
Variable idx : list sidx.
Variable p : parsed.
Variable c dbg : bool.
Hypothesis Wf : wf_shape ps.
Hypothesis St : dynamic ps = false.
Hypothesis Pk : packed ps strides.
Hypothesis Dm : Forall (fun d => 0 <= d <= SMAX) ps.
Hypothesis New : basic_new (shape_to_size ps) ps strides true idx = Ok (p, c).

Lemma st_parse : parse (shape_to_size ps) ps strides true idx = Ok p /\ is_contiguous (p_shape p) (p_strides p) = Some c.
Proof.
  unfold basic_new in New. destruct (parse _ _ _ _ _) as [p'| |]; try discriminate New. cbn [rbind] in New.
  destruct (is_contiguous (p_shape p') (p_strides p')) eqn:E; [|discriminate New].
  assert (p' = p) by congruence. subst p'. split; congruence.
Qed.
Lemma st_facts : accepts ps idx /\ p_shape p = sel_shape ps idx /\ elements p = selected ps idx /\ length (p_strides p) = length (p_shape p) /\
  Forall (fun s => (8 | s)) (p_strides p) /\ Forall (fun d => 0 <= d) (p_shape p) /\ 0 <= prod (p_shape p) < 2147483648 /\
  shape_to_size (p_shape p) = prod (p_shape p) /\ vdyn p = false /\ (p_shape p = [] -> c = true) /\ (c = true -> layout (p_shape p) (p_strides p)).
Proof.
  destruct st_parse as [E Ec]. pose proof (wf_prod_nonneg ps Wf St) as P0. pose proof (static_size ps Wf St) as Es.
  destruct (C36_selects (shape_to_size ps) ps strides idx p ltac:(rewrite Es; exact P0) Pk Dm E) as (Ha & Hs & He).
  destruct (parse_ok ps strides idx Ha Pk Dm) as (p' & E' & _ & _ & _ & L).
  assert (Ep : parse_loop false (combine ps strides) idx = Ok p).
  { unfold parse in E. destruct (Nat.ltb (length idx) (length ps)); [discriminate E|]. destruct (Nat.ltb (length ps) (length idx)); [discriminate E|]. cbn [negb] in E.
    destruct (Z.ltb_spec (shape_to_size ps) 0); [lia|]. exact E. }
  assert (p' = p) by congruence. subst p'.
  assert (D0 : Forall (fun d => 0 <= d) ps) by (eapply Forall_impl; [|exact Dm]; cbn; intros; lia).
  destruct (sel_le ps idx Ha D0) as [S1 S2]. rewrite <- Hs in S1, S2. pose proof (prod_nonneg _ S1) as S3. destruct Wf as (_ & W2 & _).
  assert (Sz : shape_to_size (p_shape p) = prod (p_shape p)).
  { unfold shape_to_size. destruct (p_shape p) as [|d t] eqn:Ed; [reflexivity|]. inversion S1; subst. destruct (Z.ltb_spec d 0); [lia|].
    rewrite fold_mul, Z.mul_1_l. apply to_int_small. lia. }
  split; [exact Ha|]. split; [exact Hs|]. split; [exact He|]. split; [exact L|].
  split; [|split; [exact S1|split; [lia|split; [exact Sz|split; [unfold vdyn; rewrite Sz; apply Z.ltb_ge; lia|split]]]]].
  - eapply parse_8; [exact Ep|]. pose proof (packed_8 _ _ Pk) as P8. clear - P8. revert strides P8. induction ps as [|d t IH]; intros [|s st] P8; cbn [combine]; constructor.
    + inversion P8; assumption.
    + apply IH. now inversion P8.
  - intros E0. rewrite E0 in *. cbn in L. destruct (p_strides p); [|discriminate L]. cbn in Ec. congruence.
  - intros ->. apply C23_contiguous_sound; auto.
Qed.

Lemma st_sel_len : length (selected ps idx) = Z.to_nat (prod (p_shape p)).
Proof. destruct st_facts as (Ha & Hs & _). pose proof (selected_length _ _ Ha). rewrite <- Hs in H. lia. Qed.
Lemma st_sel_range : Forall (fun o => 0 <= o < prod ps) (selected ps idx).
Proof. destruct st_facts as (Ha & _). now apply selected_range. Qed.

Lemma st_view st (a : list V) : bview p c st a = pick a (selected ps idx).
Proof.
  destruct st_facts as (Ha & Hs & He & L & M & D & B & Sz & Vd & C0 & C1).
  unfold bview, bsize, bbegin, bbuff. rewrite Vd, Sz, Z.add_0_r.
  destruct (prod_zero _ D) as [Z0|Pos].
  - rewrite Z0. cbn [Z.to_nat seq map]. pose proof st_sel_len as SL. rewrite Z0 in SL. cbn in SL.
    destruct (selected ps idx); [reflexivity|discriminate SL].
  - rewrite <- He. unfold pick, elements. destruct (p_shape p) as [|d0 sh] eqn:Esh.
    + rewrite (C0 eq_refl). destruct (p_strides p) as [|? ?] eqn:Est; [|discriminate L]. cbn [all_idx map offset]. 
      change (0 / 8) with 0. rewrite Z.add_0_r. change (Z.to_nat (prod [])) with 1%nat. cbn [seq map all_some Nat.iter nat_rect it_begin it_ptr].
      assert (S0 : Forall (fun o => 0 <= o < prod ps) [p_start p]) by (pose proof st_sel_range as R; rewrite <- He in R; unfold elements in R; rewrite Esh, Est in R; cbn [all_idx map offset] in R; change (0 / 8) with 0 in R; rewrite Z.add_0_r in R; exact R).
      inversion S0; subst. unfold at_ptr. destruct (Z.ltb_spec (p_start p) 0); [lia|reflexivity].
    + destruct (p_strides p) as [|s0 st0] eqn:Est; [discriminate L|]. inversion Pos as [|? ? P1 P2]; subst.
      rewrite <- (map_map (fun k => it_ptr (Nat.iter k it_inc (it_begin c (p_start p) (d0 :: sh) (s0 :: st0)))) (at_ptr a)).
      change (prod (d0 :: sh)) with (d0 * prod sh). rewrite (pointers c (p_start p) d0 d0 sh s0 st0) by (auto; cbn [length] in L; lia).
      f_equal. rewrite at_pick.
      * rewrite map_map. reflexivity.
      * pose proof st_sel_range as R. rewrite <- He in R. unfold elements in R. rewrite Esh, Est in R. eapply Forall_impl; [|exact R]. cbn; intros; lia.
Qed.

Lemma st_fun a : fits ps a -> exists w, view_fun ps idx [a] = Some w /\ pick a (selected ps idx) = Some w /\ length w = Z.to_nat (prod (p_shape p)) /\ forall j, nth_error w j = match nth_error (selected ps idx) j with Some o => nth_error a (Z.to_nat o) | None => None end.
Proof.
  intros F. unfold fits, fits_len in F. rewrite St in F. pose proof st_sel_range as R. rewrite <- F in R.
  destruct (pick_some a _ R) as (w & E & Lw & N). exists w. unfold view_fun, cur_shape. rewrite St. destruct Wf as (_ & W2 & _).
  destruct (Z.ltb_spec (Z.of_nat (length a)) 2147483648); [|lia]. split; [exact E|]. split; [exact E|]. split; [|exact N]. rewrite Lw. apply st_sel_len.
Qed.

(** A correct [propagate] makes a correct node. *)
Lemma static_node_ok :
  (forall st old q w w', b_diff st = [] -> pin_ok veqb ps old q -> view_fun ps idx [old] = Some w -> view_fun ps idx [pview q] = Some w' ->
     exists d, view_prop veqb dbg ps p c st q = Ok (BSt d (b_prev st) (b_n0 st) (b_first st) (b_cache st)) /\ replay veqb w d = Some w' /\ Forall is_change d) ->
  vnode_ok veqb (view_node veqb dbg ps p c) (view_fun ps idx).
Proof.
  intros Hp. destruct st_facts as (Ha & Hs & He & L & M & D & B & Sz & Vd & C0 & C1).
  assert (Hd : dynamic (p_shape p) = false) by (destruct (p_shape p) as [|d t]; [reflexivity|]; inversion D; subst; cbn; apply Z.ltb_ge; lia).
  assert (Ft : forall a w : list V, fits ps a -> view_fun ps idx [a] = Some w -> fits (p_shape p) w).
  { intros a w Fa Ew. destruct (st_fun a Fa) as (w' & E1 & _ & L1 & _). assert (w' = w) by congruence. subst w'. unfold fits, fits_len. rewrite Hd. lia. }
  constructor. exists (fun ins st => exists a, ins = [a] /\ fits ps a /\ b_diff st = []). split; [|split].
  - intros ins v Hf HF. cbn [vn_pre vn_shape view_node] in *. inversion Hf as [|? a ? r Fa Hr]; subst. inversion Hr; subst.
    split; [now apply (Ft a)|]. cbn [map vn_init view_node one still pview]. unfold view_init. rewrite Vd. eexists. split; [reflexivity|]. exists a. repeat split; auto.
  - intros ins st (a & -> & Fa & Ed). destruct (st_fun a Fa) as (w & E1 & E2 & _). exists w. split; [exact E1|].
    cbn [map vn_out view_node still pview]. rewrite st_view, E2. cbn [option_map]. unfold bsize_diff. rewrite Vd, Ed. reflexivity.
  - intros ins st v pins v' (a & -> & Fa & Ed) HF HP _ HF'. cbn [vn_pre view_node combine] in HP.
    inversion HP as [|? q ? r Pl HP1]; subst. inversion HP1; subst. cbn [fst snd map] in *.
    destruct (Hp st a q v v' Ed Pl HF HF') as (d & E1 & E2 & E3). pose proof (po_new _ _ _ _ Pl) as Fn.
    destruct (st_fun (pview q) Fn) as (w' & N1 & N2 & _). assert (w' = v') by congruence. subst w'.
    eexists. split; [cbn [vn_prop view_node one]; exact E1|]. cbn [vn_out vn_commit vn_revert vn_shape view_node map one still pview]. split; [|split].
    + rewrite st_view, N2. cbn [option_map]. eexists. split; [reflexivity|]. split; [reflexivity|]. constructor; cbn [pview pdiff psdiff b_diff].
      * now apply (Ft a).
      * now apply (Ft (pview q)).
      * exact E2.
      * unfold bsize_diff. rewrite Vd. destruct (st_fun a Fa) as (w & M1 & _ & M2 & _). destruct (st_fun (pview q) Fn) as (w2 & M3 & _ & M4 & _).
        assert (w = v) by congruence. assert (w2 = v') by congruence. subst. lia.
      * intros _. exact E3.
    + unfold view_commit. rewrite st_view, N2. cbn [vget]. eexists. split; [reflexivity|]. exists (pview q). repeat split; auto.
    + unfold view_revert. rewrite Vd. eexists. split; [reflexivity|]. exists a. repeat split; auto.
Qed.

(** ** Consecutive elements *)
Lemma st_consecutive : c = true -> selected ps idx = map (fun j => p_start p + j) (zseq (prod (p_shape p))).
Proof.
  intros Hc. destruct st_facts as (Ha & Hs & He & L & M & D & B & Sz & Vd & C0 & C1). rewrite <- He. unfold elements. rewrite <- (all_idx_rank _ D), map_map.
  apply map_ext_in. intros v Hv. pose proof (all_idx_range _ D) as R. rewrite Forall_forall in R. rewrite (C1 Hc v (R v Hv)). f_equal. rewrite Z.mul_comm. apply Z.div_mul. lia.
Qed.
Lemma nth_zseq n j : nth_error (zseq n) j = if (j <? Z.to_nat n)%nat then Some (Z.of_nat j) else None.
Proof. unfold zseq. rewrite nth_error_map, nth_error_seq. destruct (j <? Z.to_nat n)%nat; reflexivity. Qed.

Theorem offset_ok : c = true -> (dbg = true -> 0 < prod (p_shape p)) -> vnode_ok veqb (view_node veqb dbg ps p c) (view_fun ps idx).
Proof.
  intros Hc Hdbg. apply static_node_ok. intros st old q w w' Ed Pl Ew Ew'.
  destruct st_facts as (Ha & Hs & He & L & M & D & B & Sz & Vd & C0 & C1). pose proof (st_consecutive Hc) as Sel. pose proof st_sel_range as R.
  destruct Pl as [p1 p2 p3 p4 p5]. destruct (st_fun old p1) as (x & X1 & _ & X2 & X3). assert (x = w) by congruence. subst x. clear X1.
  destruct (st_fun (pview q) p2) as (x & X1 & _ & Y2 & Y3). assert (x = w') by congruence. subst x. clear X1.
  set (n := prod (p_shape p)) in *. set (s := p_start p) in *.
  assert (Rs : 0 < n -> 0 <= s /\ s + n <= prod ps).
  { intros Hn. rewrite Sel in R. rewrite Forall_forall in R. split.
    - apply (R s). apply in_map_iff. exists 0. split; [lia|apply in_zseq; lia].
    - assert (0 <= s + (n - 1) < prod ps); [|lia]. apply R. apply in_map_iff. exists (n - 1). split; [lia|apply in_zseq; lia]. }
  set (f := fun i : nat => if Z.of_nat i <? s then None else if s + n <=? Z.of_nat i then None else Some (Z.to_nat (Z.of_nat i - s))).
  exists (remap f (pdiff q)).
  assert (Sn : forall j, (j < Z.to_nat n)%nat -> nth_error (selected ps idx) j = Some (s + Z.of_nat j)).
  { intros j Hj. rewrite Sel, nth_error_map, nth_zseq. destruct (Nat.ltb_spec j (Z.to_nat n)); [reflexivity|lia]. }
  split; [|apply (remap_replay veqb spec f (Z.to_nat n) (fun j => Z.to_nat (s + Z.of_nat j)) (pdiff q) old (pview q)); auto].
  - unfold view_prop. rewrite Hc, Vd, Ed. cbn [andb]. unfold prop_offset. fold s. unfold bsize. rewrite Vd, Sz. fold n. rewrite Ed. cbn [app].
    assert (C : forall b1 (k : res (@bst V)), b1 = true -> chk dbg b1 k = k) by (intros b1 k ->; unfold chk; cbn [negb]; now rewrite andb_false_r).
    rewrite (C true) by reflexivity. unfold fits, fits_len in p2. rewrite St in p2.
    assert (C2 : dbg = false \/ 0 < n) by (destruct dbg; auto).
    assert (U : forall us : list (update V), flat_map (fun u => if Z.of_nat (uidx u) <? s then [] else if s + n <=? Z.of_nat (uidx u) then [] else [Upd (Z.to_nat (Z.of_nat (uidx u) - s)) (uold u) (uval u)]) us = remap f us).
    { intros us. unfold remap. apply flat_map_ext. intros u. unfold f. destruct (Z.of_nat (uidx u) <? s); [reflexivity|]. destruct (s + n <=? Z.of_nat (uidx u)); reflexivity. }
    destruct C2 as [->|Hn].
    + unfold chk. cbn [andb]. rewrite U. reflexivity.
    + destruct (Rs Hn) as [R1 R2]. rewrite (C (0 <=? s)) by (apply Z.leb_le; lia). rewrite (C (s <=? s + n)) by (apply Z.leb_le; lia).
      rewrite (C (s + n <=? Z.of_nat (length (pview q)))) by (apply Z.leb_le; lia). rewrite U. reflexivity.
  - intros i j. unfold f. destruct (Z.ltb_spec (Z.of_nat i) s); [split; [discriminate|intros [? ->]; destruct (Z.ltb_spec 0 n); [destruct (Rs ltac:(lia))|]; lia]|].
    destruct (Z.leb_spec (s + n) (Z.of_nat i)); [split; [discriminate|intros [? ->]; destruct (Z.ltb_spec 0 n); [destruct (Rs ltac:(lia))|]; lia]|].
    split.
    + intros E. assert (Z.to_nat (Z.of_nat i - s) = j) by congruence. split; [lia|]. lia.
    + intros [Hj ->]. f_equal. destruct (Rs ltac:(lia)). lia.
  - intros j Hj. rewrite X3, Sn by exact Hj. reflexivity.
  - intros j Hj. rewrite Y3, Sn by exact Hj. reflexivity.
Qed.

(** ** Every k-th element *)
Section Every.
Variable n k : Z.
Hypothesis Sh : p_shape p = [n].
Hypothesis Ss : p_strides p = [8 * k].
Hypothesis Nc : c = false.

Lemma ev_facts : 2 <= n /\ n < 2147483648 /\ 0 <= p_start p /\ selected ps idx = map (fun j => p_start p + j * k) (zseq n) /\ p_start p + (n - 1) * k < prod ps.
Proof.
  destruct st_facts as (Ha & Hs & He & L & M & D & B & Sz & Vd & C0 & C1). destruct st_parse as [_ Ec].
  rewrite Sh, Ss, Nc in Ec. rewrite Sh in B, D. cbn [prod] in B. assert (Dn : 0 <= n) by (inversion D; assumption).
  assert (Hn : 2 <= n).
  { unfold is_contiguous in Ec. cbn [combine rev app contig] in Ec. destruct (Z.leb_spec 0 n); [|lia]. cbn [orb negb] in Ec.
    destruct (Z.eqb_spec n 0); [discriminate Ec|]. destruct (Z.eqb_spec n 1); [discriminate Ec|lia]. }
  assert (Sel : selected ps idx = map (fun j => p_start p + j * k) (zseq n)).
  { rewrite <- He. unfold elements. rewrite Sh, Ss. cbn [all_idx]. rewrite map_flat_map. cbn [map offset]. generalize (zseq n). intros l. induction l as [|x l IH]; [reflexivity|].
    cbn [flat_map map app]. rewrite IH. f_equal. f_equal. rewrite Z.add_0_r. replace (x * (8 * k)) with (x * k * 8) by ring. apply Z.div_mul. lia. }
  pose proof st_sel_range as R. rewrite Sel, Forall_forall in R. split; [exact Hn|]. split; [lia|]. split; [|split; [exact Sel|]].
  - assert (0 <= p_start p + 0 * k < prod ps); [|lia]. apply R. apply in_map_iff. exists 0. split; [reflexivity|apply in_zseq; lia].
  - assert (0 <= p_start p + (n - 1) * k < prod ps); [|lia]. apply R. apply in_map_iff. exists (n - 1). split; [reflexivity|apply in_zseq; lia].
Qed.

(** What [propagate] does. *)
Definition ev_map (i : nat) : option nat :=
  if Z.of_nat i <? p_start p then None else if n * k <=? Z.of_nat i then None
  else if negb (Z.rem (Z.of_nat i - p_start p) k =? 0) then None else Some (Z.to_nat (Z.quot (Z.of_nat i - p_start p) k)).

Lemma ev_prop st q : 0 < k -> b_diff st = [] -> (dbg = true -> p_start p <= n * k /\ n * k <= Z.of_nat (length (pview q)) + k) ->
  view_prop veqb dbg ps p c st q = Ok (BSt (remap ev_map (pdiff q)) (b_prev st) (b_n0 st) (b_first st) (b_cache st)).
Proof.
  intros Kp Ed Hd. destruct st_facts as (Ha & Hs & He & L & M & D & B & Sz & Vd & C0 & C1). destruct ev_facts as (N2 & N3 & S0 & Sel & Last).
  unfold view_prop. rewrite Nc, Vd, Ed. cbn [andb negb orb]. unfold prop_strided. rewrite Vd. cbn [negb].
  assert (C : forall T b1 (r : res T), b1 = true -> chk dbg b1 r = r) by (intros T b1 r ->; unfold chk; cbn [negb]; now rewrite andb_false_r).
  rewrite !(C _ true) by reflexivity. cbn [rbind]. unfold bsize, bbegin. rewrite Vd, Sz, Sh, Ss. cbn [prod].
  rewrite Z.mul_1_r. unfold it_begin, it_add. cbn [it_shape it_ptr]. unfold increment, mk_shapeinfo.
  destruct (Z.eqb_spec n 0); [lia|]. destruct (Z.eqb_spec n 1); [lia|]. destruct (Z.eqb_spec n (-1)); [lia|].
  cbn [tl combine rev map si_axes si_loc inc_loop vget it_ptr]. unfold axis0. cbn [si_s0 hd].
  replace (Z.quot (0 + n * (8 * k)) itemsize) with (n * k) by (unfold itemsize; replace (0 + n * (8 * k)) with (n * k * 8) by ring; now rewrite Z.quot_mul).
  replace (bbuff p st + n * k - bbuff p st) with (n * k) by ring.
  replace (Z.quot (8 * k) itemsize) with k by (unfold itemsize; rewrite Z.mul_comm, Z.quot_mul; lia).
  rewrite (C _ (0 <=? p_start p)) by (apply Z.leb_le; lia).
  assert (C2 : chk dbg (p_start p <=? n * k) (chk dbg true (chk dbg (n * k <=? Z.of_nat (length (pview q)) + k)
    (rbind (rfold (strided_step dbg p (p_start p) (n * k) n) (b_diff st) (pdiff q)) (fun d => Ok (BSt d (b_prev st) (b_n0 st) (b_first st) (b_cache st)))))) =
    rbind (rfold (strided_step dbg p (p_start p) (n * k) n) (b_diff st) (pdiff q)) (fun d => Ok (BSt d (b_prev st) (b_n0 st) (b_first st) (b_cache st)))).
  { destruct dbg; [|reflexivity]. destruct (Hd eq_refl). rewrite !C; auto; apply Z.leb_le; lia. }
  rewrite C2. clear C2 Hd. rewrite Ed.
  assert (G : forall (us d0 : list (update V)), rfold (strided_step dbg p (p_start p) (n * k) n) d0 us = Ok (d0 ++ remap ev_map us)).
  { induction us as [|u us IH]; intros d0; cbn [rfold]; [cbn [remap flat_map]; now rewrite app_nil_r|].
    assert (Hu : strided_step dbg p (p_start p) (n * k) n d0 u = Ok (d0 ++ remap ev_map [u])).
    { unfold strided_step, remap, ev_map. cbn [flat_map]. rewrite Ss. cbn [through].
      replace (Z.quot (8 * k) itemsize) with k by (unfold itemsize; rewrite Z.mul_comm, Z.quot_mul; lia).
      destruct (Z.ltb_spec (Z.of_nat (uidx u)) (p_start p)); [cbn [app]; now rewrite app_nil_r|].
      destruct (Z.leb_spec (n * k) (Z.of_nat (uidx u))); [cbn [app]; now rewrite app_nil_r|].
      destruct (Z.eqb_spec k 0); [lia|]. destruct (negb (Z.rem (Z.of_nat (uidx u) - p_start p) k =? 0)); [cbn [rbind app]; now rewrite app_nil_r|].
      cbn [rbind]. rewrite C; [reflexivity|]. apply andb_true_intro. split.
      - apply Z.leb_le. apply Z.quot_pos; lia.
      - apply Z.ltb_lt. rewrite Z.quot_div_nonneg by lia. apply Z.div_lt_upper_bound; nia. }
    rewrite Hu. cbn [rbind]. rewrite IH. f_equal. rewrite <- app_assoc. f_equal. cbn [remap flat_map]. now rewrite app_nil_r. }
  rewrite G. reflexivity.
Qed.

Theorem every_ok : p_start p < k -> vnode_ok veqb (view_node veqb dbg ps p c) (view_fun ps idx).
Proof.
  intros Hk. apply static_node_ok. intros st old q w w' Ed Pl Ew Ew'.
  destruct st_facts as (Ha & Hs & He & L & M & D & B & Sz & Vd & C0 & C1). destruct ev_facts as (N2 & N3 & S0 & Sel & Last).
  destruct Pl as [p1 p2 p3 p4 p5]. destruct (st_fun old p1) as (x & X1 & _ & X2 & X3). assert (x = w) by congruence. subst x. clear X1.
  destruct (st_fun (pview q) p2) as (x & X1 & _ & Y2 & Y3). assert (x = w') by congruence. subst x. clear X1.
  rewrite Sh in X2, Y2. cbn [prod] in X2, Y2. rewrite Z.mul_1_r in X2, Y2.
  exists (remap ev_map (pdiff q)).
  assert (Sn : forall j, (j < Z.to_nat n)%nat -> nth_error (selected ps idx) j = Some (p_start p + Z.of_nat j * k)).
  { intros j Hj. rewrite Sel, nth_error_map, nth_zseq. destruct (Nat.ltb_spec j (Z.to_nat n)); [reflexivity|lia]. }
  split; [|apply (remap_replay veqb spec ev_map (Z.to_nat n) (fun j => Z.to_nat (p_start p + Z.of_nat j * k)) (pdiff q) old (pview q)); auto].
  - apply ev_prop; [lia|exact Ed|]. intros _. unfold fits, fits_len in p2. rewrite St in p2. nia.
  - intros i j. unfold ev_map. destruct (Z.ltb_spec (Z.of_nat i) (p_start p)); [split; [discriminate|intros [? ->]; nia]|].
    destruct (Z.leb_spec (n * k) (Z.of_nat i)); [split; [discriminate|intros [? ->]; nia]|].
    destruct (Z.eqb_spec (Z.rem (Z.of_nat i - p_start p) k) 0) as [E|E]; cbn [negb].
    + pose proof (Z.quot_rem' (Z.of_nat i - p_start p) k) as QR. rewrite E, Z.add_0_r in QR. set (z := Z.quot (Z.of_nat i - p_start p) k) in *.
      assert (0 <= z) by nia. assert (z < n) by nia. split.
      * intros E'. assert (Z.to_nat z = j) by congruence. split; [lia|]. replace (Z.of_nat j) with z by lia. nia.
      * intros [Hj Ei]. f_equal. assert (Z.of_nat i = p_start p + Z.of_nat j * k) by nia. assert (z = Z.of_nat j) by nia. lia.
    + split; [discriminate|]. intros [Hj Ei]. exfalso. apply E. assert (E1 : Z.of_nat i - p_start p = Z.of_nat j * k) by nia. rewrite E1. apply Z.rem_mul. lia.
  - intros j Hj. rewrite X3, Sn by exact Hj. reflexivity.
  - intros j Hj. rewrite Y3, Sn by exact Hj. reflexivity.
Qed.

(** Otherwise the last element's updates are lost (without assertions). *)
Theorem every_lost : dbg = false -> 0 < k <= p_start p -> forall a x y, fits ps a -> nth_error a (Z.to_nat (p_start p + (n - 1) * k)) = Some x ->
  let i := Z.to_nat (p_start p + (n - 1) * k) in
  let q := {| pview := lset i y a; pdiff := [change i x y]; psdiff := 0 |} in
  exists st st' out w, view_init ps p c a = Ok st /\ view_prop veqb dbg ps p c st q = Ok st' /\ vn_out (view_node veqb dbg ps p c) st' [q] = Some out /\
    view_fun ps idx [a] = Some w /\ pdiff out = [] /\ pview out = lset (Z.to_nat (n - 1)) y w /\ nth_error w (Z.to_nat (n - 1)) = Some x.
Proof.
  intros Hdb Hk a x y Fa Ex i q. destruct st_facts as (Ha & Hs & He & L & M & D & B & Sz & Vd & C0 & C1). destruct ev_facts as (N2 & N3 & S0 & Sel & Last).
  exists (BSt [] 0 (hd 0 (p_shape p)) (Slice 0 0 1) []). unfold view_init. rewrite Vd.
  assert (Fq : fits ps (pview q)) by (unfold fits; cbn [q pview]; rewrite lset_length; exact Fa).
  destruct (st_fun a Fa) as (w & X1 & _ & X2 & X3). destruct (st_fun (pview q) Fq) as (w' & Y1 & Y0 & Y2 & Y3).
  assert (Sn : forall j, (j < Z.to_nat n)%nat -> nth_error (selected ps idx) j = Some (p_start p + Z.of_nat j * k)).
  { intros j Hj. rewrite Sel, nth_error_map, nth_zseq. destruct (Nat.ltb_spec j (Z.to_nat n)); [reflexivity|lia]. }
  rewrite Sh in X2, Y2. cbn [prod] in X2, Y2. rewrite Z.mul_1_r in X2, Y2.
  eexists _, _, w. split; [reflexivity|]. split; [apply ev_prop; [lia|reflexivity|congruence]|].
  cbn [vn_out view_node]. rewrite st_view, Y0. cbn [option_map]. split; [reflexivity|]. split; [exact X1|].
  cbn [pdiff pview b_diff]. split; [|split].
  - cbn [q pdiff remap flat_map change uidx uold uval]. unfold ev_map. destruct (Z.ltb_spec (Z.of_nat i) (p_start p)); [reflexivity|].
    destruct (Z.leb_spec (n * k) (Z.of_nat i)); [reflexivity|]. exfalso. unfold i in *. nia.
  - apply nth_error_ext. intros j. rewrite Y3, nth_error_lset. rewrite X2. destruct (Nat.ltb_spec j (Z.to_nat n)) as [Hj|Hj].
    + rewrite Sn by exact Hj. cbn [q pview]. rewrite nth_error_lset. rewrite X3, Sn by exact Hj.
      assert (Il : (i < length a)%nat) by (eapply nth_error_lt; exact Ex).
      destruct (Nat.eqb_spec i (Z.to_nat (p_start p + Z.of_nat j * k))) as [E|E]; destruct (Nat.eqb_spec (Z.to_nat (n - 1)) j) as [E'|E']; cbn [andb].
      * destruct (Nat.ltb_spec i (length a)); [|lia]. destruct (Nat.ltb_spec (Z.to_nat (n - 1)) (Z.to_nat n)); [reflexivity|lia].
      * exfalso. apply E'. unfold i in E. assert (p_start p + (n - 1) * k = p_start p + Z.of_nat j * k) by nia. assert (n - 1 = Z.of_nat j) by nia. lia.
      * exfalso. apply E. unfold i. rewrite <- E'. f_equal. f_equal. f_equal. lia.
      * reflexivity.
    + assert (En : nth_error (selected ps idx) j = None) by (apply nth_error_None; rewrite Sel, map_length, zseq_length; lia). rewrite X3, En.
      destruct (Nat.eqb_spec (Z.to_nat (n - 1)) j); [lia|]. reflexivity.
  - rewrite X3, Sn by lia. rewrite <- Ex. f_equal. unfold i. f_equal. f_equal. f_equal. lia.
Qed.
End Every.
End Static.
End SV.
