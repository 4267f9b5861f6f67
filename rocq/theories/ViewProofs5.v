(** Views of arrays that change size. *)
From Verif Require Import Base SliceModel SliceSpec ShapeModel ShapeSpec ShapeProofs ShapeProps StateDataModel StateDataSpec Replay NodeSpec NodeShape NodeLib BinaryModel BinaryProofs BasicModel BasicSpec BasicProofs BasicProps ViewModel ViewSpec ViewProofs ViewProofs2 ViewProofs3 ViewProofs4.
Local Open Scope Z_scope.

Section DV.
Context {V : Type}.
Variable veqb : V -> V -> bool.
Variable spec : forall x y, reflect (x = y) (veqb x y).
Notation replay := (replay veqb).
Variable dbg : bool.

Lemma size_step1 lo hi : 0 <= lo -> lo <= hi <= SMAX -> slice_size (Slice lo hi 1) = Ok (hi - lo).
Proof.
  intros H1 H2. unfold slice_size. cbn [sstart sstop sstep]. change (1 <? 0) with false. cbn iota. destruct (Z.ltb_spec lo hi); [|f_equal; lia].
  destruct (Z.ltb_spec 0 hi); [|lia]. rewrite Z.mod_small by (unfold UMOD, SMAX in *; lia). f_equal. rewrite Z.div_1_r. lia.
Qed.

(** [propagate], non-negative start, in terms of the range of the flat array before and after. *)
Lemma prop_dyn_ok ps p s st q P0 e0 e1 : let a := sstart s in let P1 := pview q in
  0 <= a <= SMAX -> p_start p = 0 -> replay P0 (pdiff q) = Some P1 -> psdiff q = Z.of_nat (length P1) - Z.of_nat (length P0) ->
  Z.of_nat (length P0) <= SMAX -> Z.of_nat (length P1) <= SMAX ->
  a <= e0 <= Z.max a (Z.of_nat (length P0)) -> a <= e1 <= Z.max a (Z.of_nat (length P1)) ->
  flat_slice s (Z.of_nat (length P0)) = Ok (Slice a e0 1) -> flat_slice s (Z.of_nat (length P1)) = Ok (Slice a e1 1) ->
  exists d, prop_dyn dbg ps p s st q = update_dynamic_shape ps p (BSt d (b_prev st) (b_n0 st) (b_first st) (b_cache st)) P1 /\
    replay (sub P0 a (e0 - a)) d = Some (sub P1 a (e1 - a)).
Proof.
  intros a P1 Ha Hp R Hs L0 L1 H0 H1 F0 F1. unfold prop_dyn. fold P1. rewrite Hp. rewrite (chk_true dbg (0 =? 0)) by reflexivity.
  rewrite Hs. replace (Z.of_nat (length P1) - (Z.of_nat (length P1) - Z.of_nat (length P0))) with (Z.of_nat (length P0)) by lia.
  rewrite F0. cbn [rbind]. rewrite (size_step1 a e0) by lia. cbn [rbind]. rewrite F1. cbn [rbind]. rewrite (size_step1 a e1) by lia. cbn [rbind sstart sstop].
  set (m := smallest_size (Z.of_nat (length P0)) (pdiff q)). set (us := pdiff q) in *.
  pose proof (replay_cells veqb spec _ _ _ R) as Cells.
  pose proof (sub_len P0 a (e0 - a) ltac:(lia) ltac:(lia) ltac:(lia)) as LS0.
  assert (At : forall (l : list V) i, 0 <= i < Z.of_nat (length l) -> at_ptr l i <> None).
  { intros l i Hi. unfold at_ptr. destruct (Z.ltb_spec i 0); [lia|]. apply nth_error_Some. lia. }
  destruct (Z.ltb_spec (e0 - a) (e1 - a)) as [G|G]; [|destruct (Z.ltb_spec (e1 - a) (e0 - a)) as [S|S]].
  - (* growing *)
    destruct (Z.ltb_spec (e1 - a) (e0 - a)); [lia|]. rewrite (size_step1 e0 e1) by lia. cbn [rbind].
    pose proof (rnew true false a e0 e1 P1 eq_refl ltac:(discriminate)) as I0. unfold delta in I0. cbn iota in I0. rewrite I0 by (intros _ x Hx; apply At; lia). clear I0. cbn [rbind].
    replace (Z.max m a + Z.max 0 (e0 - Z.max m a)) with (Z.max (Z.max m a) e0) by lia.
    assert (Ez : zrange (Z.max m a) (Z.max (Z.max m a) e0) = zrange (Z.max m a) e0) by (unfold zrange; f_equal; f_equal; lia). rewrite Ez. clear Ez.
    match goal with |- context [map ?f (zrange (Z.max m a) _)] => change f with (fent (V := V) a []) end.
    pose proof (dyn_loop veqb spec dbg true false a e0 e1 (Z.max m a) P1 ltac:(lia) ltac:(lia) ltac:(lia) eq_refl ltac:(discriminate) P0 us P1 R ltac:(lia)) as I1.
    unfold dstate, delta, frl, dn in I1. cbn [remap flat_map] in I1. rewrite app_nil_r in I1. rewrite I1. clear I1. cbn [rbind].
    eexists. split; [reflexivity|]. 
    assert (E1 : map (dent true false a P1 us) (zrange e0 e1) = map (fun i => Upd (Z.to_nat (i - a)) None (at_ptr P1 i)) (zrange e0 (e0 + Z.of_nat (Z.to_nat (e1 - e0))))).
    { rewrite Z2Nat.id by lia. replace (e0 + (e1 - e0)) with e1 by lia. reflexivity. }
    rewrite E1. erewrite rp_app; [|apply (place_range veqb spec); lia]. rewrite Z2Nat.id by lia.
    pose proof (sub_len P1 e0 (e1 - e0) ltac:(lia) ltac:(lia) ltac:(lia)) as LS1.
    apply (tail_ok veqb spec P0 P1 us a e0 e1 R); try lia.
    + rewrite app_length. lia.
    + intros j Hj. destruct (Z.ltb_spec (a + Z.of_nat j) e0).
      * rewrite nth_error_app1 by lia. rewrite sub_nth. destruct (Nat.ltb_spec j (Z.to_nat (e0 - a))); [|lia]. f_equal. lia.
      * rewrite nth_error_app2 by lia. rewrite sub_nth. destruct (Nat.ltb_spec (j - length (sub P0 a (e0 - a))) (Z.to_nat (e1 - e0))); [|lia]. f_equal. lia.
  - (* shrinking *)
    rewrite (size_step1 e1 e0) by lia. cbn [rbind].
    pose proof (rnew false true a e1 e0 P1 eq_refl ltac:(discriminate)) as I0. unfold delta in I0. cbn iota in I0. rewrite I0 by discriminate. clear I0. cbn [rbind].
    replace (Z.max m a + Z.max 0 (e1 - Z.max m a)) with (Z.max (Z.max m a) e1) by lia.
    assert (Ez : zrange (Z.max m a) (Z.max (Z.max m a) e1) = zrange (Z.max m a) e1) by (unfold zrange; f_equal; f_equal; lia). rewrite Ez. clear Ez.
    match goal with |- context [map ?f (zrange (Z.max m a) _)] => change f with (fent (V := V) a []) end.
    pose proof (dyn_loop veqb spec dbg false true a e1 e0 (Z.max m a) P1 ltac:(lia) ltac:(lia) ltac:(lia) eq_refl ltac:(discriminate) P0 us P1 R ltac:(lia)) as I1.
    unfold dstate, delta, frl, dn in I1. cbn [remap flat_map] in I1. rewrite app_nil_r in I1. rewrite I1. clear I1. cbn [rbind].
    assert (Dl : forall x, e1 <= x < e0 -> (match firstold (upds (Z.to_nat x) us) with Some y => Some y | None => at_ptr P1 x end) = nth_error P0 (Z.to_nat x) /\ (firstold (upds (Z.to_nat x) us) = None -> at_ptr P1 x <> None)).
    { intros x Hx. destruct (nth_error_get P0 (i := Z.to_nat x) ltac:(lia)) as [y Ey]. specialize (Cells (Z.to_nat x)). rewrite Ey in Cells.
      destruct (upds (Z.to_nat x) us) as [|u l] eqn:Eu.
      - cbn [ochain] in Cells. change (firstold (V := V) []) with (@None V). unfold at_ptr. destruct (Z.ltb_spec x 0); [lia|]. rewrite <- Cells. split; [congruence|discriminate].
      - rewrite (chain_first _ _ _ Cells) by discriminate. split; [congruence|discriminate]. }
    pose proof (fill false true a e1 e0 (Z.max m a) P1 eq_refl ltac:(discriminate) us eq_refl ltac:(intros x Hx; apply (Dl x Hx))) as I2.
    unfold dstate, delta, frl, dn in I2. rewrite I2. clear I2. cbn [rbind].
    eexists. split; [reflexivity|].
    assert (E1 : map (dfin a P1 us) (rev (zrange e1 e0)) = map (fun i => Upd (Z.to_nat (i - a)) (match firstold (upds (Z.to_nat i) us) with Some y => Some y | None => at_ptr P1 i end) None) (rev (zrange e1 (e1 + Z.of_nat (Z.to_nat (e0 - e1)))))).
    { rewrite Z2Nat.id by lia. replace (e1 + (e0 - e1)) with e0 by lia. reflexivity. }
    rewrite E1. erewrite rp_app; [|apply (remove_range veqb spec _ a e1 (fun i => match firstold (upds (Z.to_nat i) us) with Some y => Some y | None => at_ptr P1 i end))].
    + apply (tail_ok veqb spec P0 P1 us a e0 e1 R); try lia.
      * rewrite firstn_length. lia.
      * intros j Hj. rewrite nth_error_firstn. destruct (Nat.ltb_spec j (Z.to_nat (e1 - a))); [|lia]. rewrite sub_nth. destruct (Nat.ltb_spec j (Z.to_nat (e0 - a))); [|lia].
        destruct (Z.ltb_spec (a + Z.of_nat j) e1); [|lia]. f_equal. lia.
    + lia.
    + lia.
    + intros i Hi. rewrite (proj1 (Dl i ltac:(lia))). rewrite sub_nth. destruct (Nat.ltb_spec (Z.to_nat (i - a)) (Z.to_nat (e0 - a))); [|lia]. f_equal. lia.
  - (* same size *)
    assert (e1 = e0) by lia. subst e1. rewrite (size_step1 e0 e0) by lia. cbn [rbind].
    cbn [rfold rbind app].
    replace (Z.max m a + Z.max 0 (e0 - Z.max m a)) with (Z.max (Z.max m a) e0) by lia.
    assert (Ez : zrange (Z.max m a) (Z.max (Z.max m a) e0) = zrange (Z.max m a) e0) by (unfold zrange; f_equal; f_equal; lia). rewrite Ez. clear Ez.
    match goal with |- context [map ?f (zrange (Z.max m a) _)] => change f with (fent (V := V) a []) end.
    pose proof (dyn_loop veqb spec dbg false false a e0 e0 (Z.max m a) P1 ltac:(lia) ltac:(lia) ltac:(lia) eq_refl ltac:(reflexivity) P0 us P1 R ltac:(lia)) as I1.
    unfold dstate, delta, frl, dn in I1. cbn [remap flat_map map app] in I1. rewrite app_nil_r in I1. rewrite I1. clear I1. cbn [rbind].
    eexists. split; [reflexivity|]. apply (tail_ok veqb spec P0 P1 us a e0 e0 R); try lia.
    intros j Hj. rewrite sub_nth. destruct (Nat.ltb_spec j (Z.to_nat (e0 - a))); [|lia]. destruct (Z.ltb_spec (a + Z.of_nat j) e0); [|lia]. f_equal. lia.
Qed.
End DV.
