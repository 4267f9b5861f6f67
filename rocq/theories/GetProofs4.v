From Verif Require Import Base Num SliceModel ShapeModel ShapeSpec ShapeProofs SliceSpec BasicModel BasicSpec BasicProofs ViewModel ViewSpec ViewProofs2 PermModel PermSpec AdvModel AdvSpec AdvProofs
  NodeSpec StateDataModel PyModel PySpec PyProofs PyValues GetSpec GetProofs GetProofs2 GetProofs3.
Local Open Scope Z_scope.

Lemma F2_len {X Y} (R : X -> Y -> Prop) l r : Forall2 R l r -> length l = length r.
Proof. induction 1; cbn; congruence. Qed.
Lemma stands_padded m dv sh ix nix : Forall2 (stands m dv) ix nix -> Forall2 (stands m dv) (ix ++ repeat full (length sh - length ix)) (padded sh nix).
Proof.
  intros F. unfold padded. rewrite <- (F2_len _ _ _ F). apply Forall2_app; [exact F|]. induction (length sh - length ix)%nat; cbn; constructor; auto. cbn. auto.
Qed.
(** Full slices select everything. *)
Lemma full_axes m dv sh : Forall (fun d => 0 <= d <= SMAX) sh -> forall ix nix, length ix = length sh -> Forall2 (stands m dv) ix nix ->
  forallb (fun i => is_sym i || is_full i) ix = true ->
  let b := map (fun _ => ISlice (Slice 0 SMAX 1)) sh in axes sh nix b /\ sel_shape sh b = sh /\ selected sh b = zseq (prod sh).
Proof.
  induction 1 as [|d sh Hd F IH]; intros ix nix L St A; destruct ix as [|i ix]; try discriminate; inversion St as [|? k ? nix' S1 S2]; subst; cbn [map].
  - repeat split. constructor.
  - cbn [forallb] in A. apply andb_true_iff in A. destruct A as [A1 A2]. destruct (IH ix nix' ltac:(now injection L) S2 A2) as (B1 & B2 & B3).
    pose proof (chosen_full d Hd) as C. split; [|split].
    + constructor; [lia| |exact B1]. destruct i as [z|x y z|x], k as [z'|x' y' z'|v]; cbn [stands] in S1; try contradiction; try discriminate.
      * destruct S1 as (<- & <- & <-). destruct x, y, z; try discriminate. cbn [axis]. apply positions_chosen; [lia|reflexivity|reflexivity].
      * exact C.
    + cbn [sel_shape]. rewrite B2, C, zseq_len by lia. reflexivity.
    + cbn [selected]. rewrite B3, C. cbn [prod]. apply zseq_mul; [lia|]. apply ViewProofs2.prod_nonneg. eapply Forall_impl; [|exact F]. cbn. intros; lia.
Qed.
Lemma read_all (a : list num) k : Z.of_nat (length a) = k -> all_some (map (fun o => nth_error a (Z.to_nat o)) (zseq k)) = Some a.
Proof.
  intros <-. unfold zseq. rewrite Nat2Z.id, map_map.
  rewrite (map_ext _ (nth_error a)) by (intros; now rewrite Nat2Z.id). rewrite PyValues.all_some_nth by lia. now rewrite firstn_all.
Qed.
Lemma static_shape sh : Forall (fun d => 0 <= d) sh -> dynamic sh = false.
Proof. destruct 1 as [|d t H F]; [reflexivity|]. unfold dynamic. cbn. apply Z.ltb_ge. exact H. Qed.
Lemma npy_shape_arrays sh ix b n : axes sh ix b -> existsb is_array ix = true -> undisturbed ix ->
  ins (result_axis (spec_of ix)) (Z.of_nat n) (pick false (spec_of ix) (sel_shape sh b)) = npy_shape sh ix n.
Proof. intros H E U. unfold npy_shape, undisturbed in *. rewrite E, U, spec_axis, (kept_pick _ _ _ H). reflexivity. Qed.

Lemma shape_last m s o c : shape_at (Pym (p_syms m ++ [s]) o c) (length (p_syms m)) = s_shape s.
Proof. unfold shape_at. cbn [p_syms]. rewrite nth_error_app2, Nat.sub_diag by lia. reflexivity. Qed.

Theorem getitem_value m dv x s a ix nix n y m' :
  let sh := s_shape s in let nix' := padded sh nix in
  nth_error (p_syms m) x = Some s -> Forall (fun d => 0 <= d < 2147483648) sh -> prod sh < 2147483648 ->
  yields m dv x a -> Z.of_nat (length a) = prod sh -> Forall2 (stands m dv) ix nix -> inside n sh nix' ->
  (existsb is_array nix' = true -> undisturbed nix') -> array_getitem x ix m = Ok (y, m') ->
  exists w, npy sh nix' n a = Some w /\ yields m' dv y w /\
    ((forall z, In z (arrays ix) -> shape_at m z = [Z.of_nat n]) -> shape_at m' y = npy_shape sh nix' n).
Proof.
  intros sh nix' Hx Hd Hp Hy La St0 In0 Un E. unfold array_getitem, bind in E. unfold look at 1 in E. rewrite Hx in E. fold sh in E.
  set (ix' := ix ++ repeat full (length sh - length ix)) in *. pose proof (stands_padded m dv sh _ _ St0 : Forall2 (stands m dv) ix' nix') as St.
  assert (Ar : arrays ix' = arrays ix).
  { unfold ix', arrays. rewrite flat_map_app. replace (flat_map _ (repeat full _)) with (@nil nat); [apply app_nil_r|]. clear. induction (length sh - length ix)%nat as [|q IHq]; [reflexivity|exact IHq]. }
  assert (Hd' : Forall (fun d => 0 <= d <= SMAX) sh) by (eapply Forall_impl; [|exact Hd]; cbn; unfold SMAX; intros; lia).
  assert (Hn : Forall (fun d => 0 <= d) sh) by (eapply Forall_impl; [|exact Hd]; cbn; intros; lia).
  pose proof (no_arrays _ _ _ _ St) as Na. destruct (forallb (fun i => negb (is_sym i)) ix') eqn:Eb; cbn [negb] in Na.
  - destruct (basic_inv m dv x s a _ _ _ Hx Hd Hp Hy La E) as (ci & ct & R & A & -> & -> & V).
    rewrite <- (split_basic_id _ Eb) in R. pose proof (axes_of m dv sh Hd' _ _ _ St R A) as X.
    destruct (basic_value sh nix' ci n a X La Na) as (w & W1 & W2). exists w. split; [exact W1|]. split; [exact (V w W2)|]. intros _.
    rewrite shape_last. cbn [s_shape]. unfold npy_shape. rewrite Na. symmetry. now apply (kept_none _ _ _ X).
  - specialize (Un Na). destruct (forallb (fun i => is_sym i || is_full i) ix') eqn:Ea.
    + destruct (advanced_inv m dv x s a ix' (entries_of nix') y m' Hx Hy (stands_arrays _ _ _ _ St) (static_shape _ Hn) E) as (ai & os & _ & L & -> & -> & Sh & V).
      fold sh in L, Sh, V. destruct (full_axes m dv sh Hd' ix' nix' L St Ea) as (X & X1 & X2).
      assert (Sp : map is_sym ix' = spec_of nix') by (rewrite <- (pure_adv _ Ea) at 1; apply (split_adv_spec _ _ _ _ St)).
      pose proof (read_all a (prod sh) La) as W. rewrite <- X2 in W.
      destruct (adv_value sh nix' _ n a a X La In0 Na Un W) as (w & W1 & W2). exists w. split; [exact W1|]. rewrite X1 in W2. rewrite Sp in V, Sh.
      split; [rewrite Sp; exact (V w W2)|]. intros Hz. rewrite shape_last. cbn [s_shape]. rewrite Ar in Sh. rewrite (Sh n Hz). rewrite <- X1 at 1. apply npy_shape_arrays; auto.
    + destruct (basic x (map split_basic ix') m) as [[b m1]| |] eqn:E1; [|discriminate..].
      destruct (basic_inv m dv x s a _ _ _ Hx Hd Hp Hy La E1) as (ci & ct & R & A & -> & -> & V1). fold sh in A, V1.
      pose proof (axes_of m dv sh Hd' _ _ _ St R A) as X. set (m1 := Pym _ _ _) in *.
      assert (exists w1, all_some (map (fun o => nth_error a (Z.to_nat o)) (selected sh ci)) = Some w1) as [w1 W1].
      { apply AdvProofs12.all_some_total. intros o Ho. pose proof (ViewProofs2.selected_range sh ci A Hd') as Rg. rewrite Forall_forall in Rg. specialize (Rg o Ho).
        destruct (nth_error a (Z.to_nat o)) eqn:Eo; [eauto|]. apply nth_error_None in Eo. fold sh in La. lia. }
      pose proof (stands_app m [Sym (KBasic ci) [x] (sel_shape sh ci) ct] (p_obj m) (p_cons m) dv _ _ St : Forall2 (stands m1 dv) ix' nix') as St1.
      assert (Hb : nth_error (p_syms m1) (length (p_syms m)) = Some (Sym (KBasic ci) [x] (sel_shape sh ci) ct)).
      { cbn [m1 p_syms]. rewrite nth_error_app2, Nat.sub_diag by lia. reflexivity. }
      pose proof (stands_arrays _ _ _ _ St1) as Ys. rewrite <- split_adv_arrays in Ys.
      destruct (advanced_inv m1 dv _ _ w1 (split_adv ix') (entries_of nix') y m' Hb (V1 w1 W1) Ys (static_shape _ (sel_nonneg sh ci)) E) as (ai & os & _ & _ & -> & -> & Sh & V).
      cbn [s_shape] in Sh, V. rewrite (split_adv_spec _ _ _ _ St) in *.
      destruct (adv_value sh nix' ci n a w1 X La In0 Na Un W1) as (w & W2 & W3). exists w. split; [exact W2|]. split; [exact (V w W3)|].
      intros Hz. rewrite shape_last. cbn [s_shape]. rewrite (Sh n); [apply npy_shape_arrays; auto|].
      intros z Hz'. rewrite split_adv_arrays, Ar in Hz'. rewrite <- (Hz z Hz'). unfold m1.
      assert (exists s', nth_error (p_syms m) z = Some s') as [s' Es].
      { pose proof (stands_arrays _ _ _ _ St0) as Y0. clear -Y0 Hz'. induction Y0 as [|p q l r H _ IH]; [destruct Hz'|]. destruct Hz' as [<-|Hz']; [|auto]. destruct H; eauto. }
      now apply (shape_app _ _ _ _ _ _ Es).
Qed.

(** If the advanced indices, integers among them, are next to each other, nothing moves. *)
Lemma sepb_cons_true t : separatedb (true :: t) = existsb (fun b => b) (after_run t).
Proof. reflexivity. Qed.
Lemma sepb_cons_false t : separatedb (false :: t) = separatedb t.
Proof. reflexivity. Qed.
Lemma no_true_after l : existsb (fun b : bool => b) (after_run l) = false -> exists i j, l = repeat true i ++ repeat false j.
Proof.
  induction l as [|[] l IH]; intros H.
  - exists O, O. reflexivity.
  - destruct (IH H) as (i & j & ->). exists (S i), j. reflexivity.
  - exists O, (S (length l)). cbn. f_equal. cbn in H. clear IH. induction l as [|[] l IH]; cbn in *; [reflexivity|discriminate|f_equal; auto].
Qed.
Lemma flat_blocks spec : separatedb spec = false -> exists i j k, spec = repeat false i ++ repeat true j ++ repeat false k.
Proof.
  induction spec as [|[] t IH]; intros H.
  - exists O, O, O. reflexivity.
  - rewrite sepb_cons_true in H. destruct (no_true_after _ H) as (j & k & ->). exists O, (S j), k. reflexivity.
  - rewrite sepb_cons_false in H. destruct (IH H) as (i & j & k & ->). exists (S i), j, k. reflexivity.
Qed.
Lemma lead_blocks i j k : (0 < j)%nat -> lead (repeat false i ++ repeat true j ++ repeat false k) = i.
Proof. intros H. induction i as [|i IH]; cbn; [destruct j; [lia|reflexivity]|now rewrite IH]. Qed.
Lemma sep_blocks i j k : separatedb (repeat false i ++ repeat true j ++ repeat false k) = false.
Proof.
  induction i as [|i IH]; [|exact IH]. cbn [repeat app]. assert (N : existsb (fun b : bool => b) (repeat false k) = false) by (induction k; auto).
  destruct j as [|j]; cbn [repeat app].
  - induction k as [|k IHk]; [reflexivity|]. cbn [repeat]. rewrite sepb_cons_false. apply IHk. exact N.
  - rewrite sepb_cons_true. induction j as [|j IHj]; cbn [repeat app after_run]; [|exact IHj]. destruct k; [reflexivity|exact N].
Qed.
Definition unint (i : nidx) : bool := match i with NInt _ => false | _ => true end.
Lemma unint_blocks i j k : forall ix, map fancy ix = repeat false i ++ repeat true j ++ repeat false k ->
  exists j', map fancy (filter unint ix) = repeat false i ++ repeat true j' ++ repeat false k /\ (existsb is_array ix = true -> (0 < j')%nat).
Proof.
  induction i as [|i IHi].
  - induction j as [|j IHj]; cbn [repeat app].
    + intros ix H. exists O. cbn [repeat app]. revert ix H. induction k as [|k IHk]; intros [|x ix] H; try discriminate; [split; [reflexivity|discriminate]|].
      injection H as H1 H2. destruct (IHk ix H2) as [E1 E2]. destruct x; try discriminate. cbn. split; [now f_equal|exact E2].
    + intros [|x ix] H; [discriminate|]. injection H as H1 H2. destruct (IHj ix H2) as (j' & E1 & E2). destruct x as [z|? ? ?|v]; [|discriminate|].
      * exists j'. cbn. auto.
      * exists (S j'). cbn. split; [now f_equal|lia].
  - intros [|x ix] H; [discriminate|]. cbn [repeat app] in H. injection H as H1 H2. destruct (IHi ix H2) as (j' & E1 & E2). destruct x; try discriminate. exists j'. cbn. split; [now f_equal|exact E2].
Qed.
Lemma adjacent_undisturbed ix : existsb is_array ix = true -> separatedb (map fancy ix) = false -> undisturbed ix.
Proof.
  intros E H. unfold undisturbed, array_axis. fold unint. destruct (flat_blocks _ H) as (i & j & k & B). destruct (unint_blocks i j k ix B) as (j' & B' & P). specialize (P E).
  assert (0 < j)%nat.
  { destruct j; [|lia]. exfalso. apply existsb_exists in E. destruct E as (x & Hx & Ex). apply (in_map fancy) in Hx. rewrite B in Hx. destruct x; try discriminate. cbn [fancy repeat app] in Hx.
    rewrite in_app_iff in Hx. destruct Hx as [Hx|Hx]; apply repeat_spec in Hx; discriminate. }
  change (filter (fun i0 => match i0 with NInt _ => false | _ => true end) ix) with (filter unint ix). rewrite B', B. unfold result_axis. rewrite !sep_blocks, !lead_blocks by assumption. reflexivity.
Qed.
