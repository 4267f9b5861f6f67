From Verif Require Import Base SliceModel SliceSpec ShapeModel ShapeSpec ShapeProofs ShapeProps StateDataModel NodeSpec NodeShape NodeLib BinaryModel BasicModel BasicSpec BasicProofs BasicProps ViewModel ViewSpec ViewProofs2 ViewProofs3 ViewProofs4 ViewProofs6 ViewProofs7 BufModel BufSpec.
Local Open Scope Z_scope.

Lemma offset_8 st : Forall (fun s => (8 | s)) st -> forall v, (8 | offset st v).
Proof.
  induction 1 as [|s st Hs H IH]; intros [|i v]; cbn [offset]; try apply Z.divide_0_r.
  apply Z.divide_add_r; [now apply Z.divide_mul_r|apply IH].
Qed.

Section BP.
Context {V : Type}.
Lemma double_8 (a : list V) k : 0 <= k -> double_at a (8 * k) = nth_error a (Z.to_nat k).
Proof.
  intros H. unfold double_at. rewrite Z.mul_comm, Z.mod_mul, Z.div_mul by lia. destruct (Z.leb_spec 0 (k * 8)); [reflexivity|lia].
Qed.
Lemma read_pick (a : list V) buf len shape strides sel : map (fun v => buf + offset strides v) (all_idx shape) = map (fun k => 8 * k) sel ->
  Forall (fun k => 0 <= k) sel -> read_buffer a (Buffer buf len shape strides) = pick a sel.
Proof.
  intros E F. unfold read_buffer, pick. cbn [bu_buf bu_strides bu_shape]. f_equal.
  rewrite <- (map_map (fun v => buf + offset strides v) (double_at a)), E, map_map. apply map_ext_in. intros k Hk.
  rewrite Forall_forall in F. apply double_8. auto.
Qed.

Lemma fixed_buffer ps strides idx p c (st : @bst V) (a : list V) : wf_shape ps -> dynamic ps = false -> packed ps strides -> Forall (fun d => 0 <= d <= SMAX) ps ->
  basic_new (shape_to_size ps) ps strides true idx = Ok (p, c) -> fits ps a ->
  exists w, view_fun ps idx [a] = Some w /\ read_buffer a (view_buffer p st) = Some w /\ bu_len (view_buffer p st) = 8 * Z.of_nat (length w).
Proof.
  intros H1 H2 H3 H4 H5 F. destruct (st_fun ps strides idx p c H1 H2 H3 H4 H5 a F) as (w & E1 & E2 & L & _). exists w. split; [exact E1|].
  destruct (st_facts ps strides idx p c H1 H2 H3 H4 H5) as (Ha & Hs & He & Ls & M & D & B & Sz & Vd & _).
  pose proof (st_sel_range ps strides idx p c H1 H2 H3 H4 H5) as SR. unfold view_buffer, bbuff, bsize. fold (vdyn p). rewrite Vd, Z.add_0_r. split.
  - rewrite <- E2. apply read_pick; [|eapply Forall_impl; [|exact SR]; cbn; lia]. rewrite <- He. unfold elements. rewrite map_map. apply map_ext. intros v.
    destruct (offset_8 _ M v) as [z ->]. rewrite Z.div_mul by lia. unfold itemsize. ring.
  - cbn [bu_len]. unfold itemsize. rewrite L, Sz. lia.
Qed.

Section Dyn.
Variable sh st0 : list Z.
Variable s0 : Z.
Variable s : slice.
Variable r : list sidx.
Variable p : parsed.
Hypothesis Pos : Forall (fun d => 0 < d <= SMAX) sh.
Hypothesis Pk : packed (-1 :: sh) (s0 :: st0).
Hypothesis New : basic_new (-1) (-1 :: sh) (s0 :: st0) true (ISlice s :: r) = Ok (p, true).
Hypothesis Inner : Forall (fun d => 0 < d) (tl (p_shape p)).
Let ps := -1 :: sh.

(** The state knows the rows of [a]. *)
Definition current (st : @bst V) (a : list V) : Prop := exists x, update_dynamic_shape ps p x a = Ok (BSt (b_diff x) (b_prev x) (b_n0 st) (b_first st) (b_cache x)).

Lemma rows_buffer st a : current st a -> fits ps a -> Z.of_nat (length a) < 2147483648 ->
  exists w, view_fun ps (ISlice s :: r) [a] = Some w /\ read_buffer a (view_buffer p st) = Some w /\ bu_len (view_buffer p st) = 8 * Z.of_nat (length w).
Proof.
  intros [x C] F B. assert (Hb : bounded sh a) by (split; assumption).
  unfold ps in C |- *. rewrite (dy_update sh st0 s0 s r p Pos Pk New Inner x a Hb) in C. injection C as C1 C2.
  exists (shown sh s a). split; [exact (dy_fun sh st0 s0 s r p Pos Pk New Inner a Hb)|].
  pose proof (dy_size sh st0 s0 s r p Pos Pk New Inner st a Hb (eq_sym C1)) as Sz.
  pose proof (shown_len sh st0 s0 s r p Pos Pk New Inner a Hb) as SL.
  destruct (dy_bounds sh st0 s0 s r p Pos Pk New Inner a Hb) as (N1 & L & C' & C3 & H1 & H2 & H3 & F1 & F2).
  pose proof (dy_vdyn sh st0 s0 s r p Pos Pk New Inner) as Vd.
  split.
  - unfold view_buffer, bbuff. fold (vdyn p). rewrite Vd, <- C2, <- C1. cbn [sstart].
    destruct (dy_facts sh st0 s0 s r p Pos Pk New Inner) as (sh1 & st1 & Ep & _ & Ps & P1 & Ls & M & _ & _ & R0 & Lay).
    set (R := prod sh) in *. set (lo := lo sh s a) in *. set (cnt := cnt sh s a) in *.
    unfold dynamic_start. replace (p_start p) with 0 by now rewrite Ep. replace (p_strides p) with (8 * R :: st1) by now rewrite Ep. replace (tl (p_shape p)) with sh1 by now rewrite Ep. cbn [hd].
    replace (Z.quot (lo * (8 * R)) itemsize) with (lo * R) by (unfold itemsize; replace (lo * (8 * R)) with (lo * R * 8) by ring; now rewrite Z.quot_mul).
    rewrite Z.add_0_l. unfold shown. fold R. fold lo. fold cnt. rewrite <- (sub_pick sh a (lo * R) (cnt * R)); [|lia|lia|exact H3].
    apply read_pick.
    + assert (Dn : Forall (fun d => 0 <= d) (cnt :: sh1)) by (constructor; [lia|]; eapply Forall_impl; [|exact Ps]; cbn; intros; lia).
      rewrite map_map. replace (zseq (cnt * R)) with (map (rank (cnt :: sh1)) (all_idx (cnt :: sh1))) by (rewrite (all_idx_rank _ Dn); cbn [prod]; now rewrite P1).
      rewrite map_map. apply map_ext_in. intros v Hv. pose proof (all_idx_range _ Dn) as Rg. rewrite Forall_forall in Rg.
      rewrite (Lay cnt ltac:(lia) v (Rg v Hv)). unfold itemsize. ring.
    + apply Forall_forall. intros z Hz. apply in_map_iff in Hz. destruct Hz as (j & <- & Hj). apply in_zseq in Hj. lia.
  - unfold view_buffer. cbn [bu_len]. rewrite Sz. unfold itemsize. rewrite SL. reflexivity.
Qed.

Variable veqb : V -> V -> bool.
Variable dbg : bool.
Lemma upd_current x a st : update_dynamic_shape ps p x a = Ok st -> current st a.
Proof.
  intros E. exists x. rewrite E. unfold update_dynamic_shape in E. destruct (p_axis0 p); [|discriminate E].
  destruct (fit _ _) as [f| |]; try discriminate E. cbn [rbind] in E. destruct (slice_size f); try discriminate E. cbn [rbind] in E. injection E as <-. reflexivity.
Qed.
Lemma init_current a st : view_init ps p true a = Ok st -> current st a.
Proof.
  unfold view_init. rewrite (dy_vdyn sh st0 s0 s r p Pos Pk New Inner). intros E. apply rbind_inv in E as (x & E1 & E).
  apply upd_current in E1. destruct (p_axis0 p); [|discriminate E]. destruct (sstart _ <? 0); [apply vget_inv in E as (c & _ & E)|]; injection E as <-; exact E1.
Qed.
Lemma prop_current st q st' : view_prop veqb dbg ps p true st q = Ok st' -> current st' (pview q).
Proof.
  unfold view_prop. intros E. apply chk_inv in E. rewrite (dy_vdyn sh st0 s0 s r p Pos Pk New Inner) in E. cbn [andb] in E. destruct (p_axis0 p) eqn:Ax; [|discriminate E].
  destruct (sstart _ <? 0).
  - unfold prop_cached in E. apply chk_inv in E. apply rbind_inv in E as (? & _ & E). apply rbind_inv in E as (? & _ & E). apply chk_inv in E.
    apply rbind_inv in E as (y1 & E1 & E). apply vget_inv in E as (c & _ & E). injection E as <-. apply upd_current in E1. exact E1.
  - unfold prop_dyn in E. apply chk_inv in E. repeat (apply rbind_inv in E as (? & _ & E)). eapply upd_current. exact E.
Qed.
Lemma revert_current st a st' : view_revert dbg ps p true st a = Ok st' -> current st' a.
Proof.
  unfold view_revert. rewrite (dy_vdyn sh st0 s0 s r p Pos Pk New Inner). intros E. apply rbind_inv in E as (x & E1 & E).
  apply upd_current in E1. destruct (p_axis0 p); [|discriminate E]. destruct (sstart _ <? 0); [|injection E as <-; exact E1].
  apply chk_inv in E. destruct (_ <? _); [discriminate E|]. injection E as <-. exact E1.
Qed.
Lemma commit_current st a st' : current st a -> view_commit p true st a = Ok st' -> current st' a.
Proof. intros C E. unfold view_commit in E. apply vget_inv in E as (c & _ & E). injection E as <-. exact C. Qed.
End Dyn.

Lemma own_read shape (v : list V) : wf_shape shape -> fits shape v -> (dynamic shape = false -> Forall (fun d => 0 <= d) shape) ->
  read_buffer v (own_buffer shape (Z.of_nat (length v))) = Some v.
Proof.
  intros W F D. unfold own_buffer. set (cur := if dynamic shape then _ else shape).
  assert (Z8 : forall n, map (fun k => 8 * k) (zseq n) = map (fun k => 8 * (0 + k)) (zseq n)) by (intros; apply map_ext; intros; lia).
  assert (K : Forall (fun d => 0 <= d) cur /\ prod cur = Z.of_nat (length v) /\ shape_to_strides shape = shape_to_strides cur).
  { unfold cur. unfold fits, fits_len in F. destruct (dynamic shape) eqn:Dy; [|auto]. destruct shape as [|d sh]; [discriminate Dy|]. cbn [tl] in *.
    destruct F as (k & Hk & E). destruct W as (W1 & _). cbn [tl] in W1. pose proof (prod_pos _ W1) as P. rewrite strides_cons. cbn [hd].
    replace (Z.quot (8 * prod sh) itemsize) with (prod sh) by (unfold itemsize; rewrite Z.mul_comm; now rewrite Z.quot_mul). rewrite E, Z.quot_mul by lia.
    split; [constructor; [lia|]; eapply Forall_impl; [|exact W1]; cbn; lia|]. split; [reflexivity|]. now rewrite strides_cons. }
  destruct K as (K1 & K2 & K3).
  rewrite (read_pick v 0 _ cur _ (map (fun j => 0 + j) (zseq (Z.of_nat (length v))))).
  - rewrite (sub_pick [] v) by lia. unfold sub. cbn [Z.to_nat skipn]. rewrite Nat2Z.id. now rewrite firstn_all.
  - rewrite map_map, <- K2, <- (all_idx_rank _ K1), map_map. apply map_ext_in. intros w Hw. pose proof (all_idx_range _ K1) as Rg. rewrite Forall_forall in Rg.
    rewrite K3, (strides_layout cur w (Rg w Hw)). ring.
  - apply Forall_forall. intros z Hz. apply in_map_iff in Hz. destruct Hz as (j & <- & Hj). apply in_zseq in Hj. lia.
Qed.
End BP.
