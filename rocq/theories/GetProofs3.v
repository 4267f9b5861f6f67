From Verif Require Import Base Num SliceModel ShapeModel ShapeSpec ShapeProofs SliceSpec BasicModel BasicSpec BasicProofs BasicProps ViewModel ViewSpec ViewProofs2 PermModel PermSpec AdvModel AdvSpec AdvSpec2 AdvProofs
  AdvProofs11 AdvProofs12 NodeSpec StateDataModel PyModel PySpec PyProofs PyValues GetSpec GetProofs GetProofs2.
Local Open Scope Z_scope.

Lemma yields_app m l o c dv x v : yields m dv x v -> yields (Pym (p_syms m ++ l) o c) dv x v.
Proof.
  assert (N : forall x s, nth_error (p_syms m) x = Some s -> nth_error (p_syms (Pym (p_syms m ++ l) o c)) x = Some s).
  { intros y s E. cbn [p_syms]. rewrite nth_error_app1; [exact E|]. apply nth_error_Some. congruence. }
  assert (W : forall x v, yields m dv x v -> exists s, nth_error (p_syms m) x = Some s) by (intros y v' [? ? E|? ? ? ? E]; eauto).
  intros H. induction H as [x s Hs Hc|x s ins v Hs Hc Hp IH Hm] using yields_ind'.
  - eapply y_dec; eauto.
  - eapply y_op; eauto. rewrite <- Hm. f_equal. unfold shapes_of. apply map_ext_in. intros z Hz.
    assert (exists v, yields m dv z v) as [v' Hv'] by (clear -Hp Hz; induction Hp as [|p q r t Hpq _ IHp]; [destruct Hz|destruct Hz as [<-|Hz]; eauto]).
    destruct (W _ _ Hv') as [s' Es]. unfold shape_at. now rewrite (N _ _ Es), Es.
Qed.
Lemma shape_app m l o c x s : nth_error (p_syms m) x = Some s -> shape_at (Pym (p_syms m ++ l) o c) x = shape_at m x.
Proof. intros E. unfold shape_at. cbn [p_syms]. rewrite nth_error_app1 by (apply nth_error_Some; congruence). reflexivity. Qed.

Lemma chosen_full d : 0 <= d <= SMAX -> chosen d (ISlice (Slice 0 SMAX 1)) = zseq d.
Proof.
  intros H. unfold chosen. cbn [sstart sstop sstep]. apply filter_all. intros x Hx. unfold zseq in Hx. apply in_map_iff in Hx. destruct Hx as (i & <- & Hi). apply in_seq in Hi.
  assert (N : py_norm d SMAX = SMAX) by reflexivity. rewrite N. unfold py_norm. cbn [Z.ltb Z.compare]. rewrite Z.mod_1_r.
  rewrite !andb_true_iff, Z.leb_le, Z.ltb_lt, Z.eqb_eq. lia.
Qed.
Lemma positions_chosen d a b c s : 0 <= d <= SMAX -> mk_slice a b c = Ok s -> 0 < sstep s -> positions d a b c = chosen d (ISlice s).
Proof.
  intros Hd H Hs. unfold mk_slice in H. destruct (Z.eqb_spec (value_or c 1) 0); [discriminate|]. injection H as <-. cbn [sstep] in Hs.
  unfold positions, chosen. cbn [sstart sstop sstep]. unfold zseq. apply filter_ext_in. intros x Hx. apply in_map_iff in Hx. destruct Hx as (i & <- & Hi). apply in_seq in Hi.
  destruct (Z.ltb_spec (value_or c 1) 0); [lia|].
  assert (N : py_norm d SMAX = SMAX) by reflexivity.
  assert (Z0 : Z.max 0 (py_norm d 0) = 0) by reflexivity.
  destruct a as [a|], b as [b|], c as [c|]; cbn [value_or]; rewrite ?N, ?Z0; try reflexivity;
    (replace (Z.of_nat i <? SMAX) with true by (symmetry; apply Z.ltb_lt; lia)); reflexivity.
Qed.

(** The axes as the view has them, from what the parser accepts. *)
Lemma axes_of m dv sh : Forall (fun d => 0 <= d <= SMAX) sh -> forall ix nix ci, Forall2 (stands m dv) ix nix ->
  rmap to_sidx (map split_basic ix) = Ok ci -> accepts sh ci -> axes sh nix ci.
Proof.
  induction 1 as [|d sh Hd F IH]; intros ix nix ci St R A; inversion A as [|? i ? ci' A1 A2]; subst.
  - inversion St as [|i k ix' nix' S1 S2]; subst; [constructor|]. cbn [map rmap] in R. destruct (to_sidx (split_basic i)); cbn in R; [|discriminate..]. destruct (rmap to_sidx (map split_basic ix')); discriminate.
  - inversion St as [|i0 k ix' nix' S1 S2]; subst; [discriminate|]. cbn [map rmap] in R.
    destruct (to_sidx (split_basic i0)) as [i'| |] eqn:E; cbn [rbind] in R; [|discriminate..]. destruct (rmap to_sidx (map split_basic ix')) as [r| |] eqn:Er; cbn [rbind] in R; [|discriminate..].
    injection R as <- <-. constructor; [lia| |exact (IH _ _ _ S2 Er A2)].
    destruct i0 as [z|a b c|x], k as [z'|a' b' c'|v]; cbn [stands] in S1; try contradiction.
    + subst z'. cbn in E. injection E as <-. cbn [axis_ok] in A1. split; [reflexivity|lia].
    + destruct S1 as (<- & <- & <-). cbn [split_basic to_sidx] in E. destruct (mk_slice a b c) as [s| |] eqn:Em; cbn [rbind] in E; [|discriminate..]. injection E as <-.
      cbn [axis]. apply positions_chosen; auto.
    + cbn in E. injection E as <-. cbn [axis]. apply chosen_full. exact Hd.
Qed.
Lemma split_basic_id ix : forallb (fun i => negb (is_sym i)) ix = true -> map split_basic ix = ix.
Proof. induction ix as [|[| |] ix IH]; cbn; intros H; try discriminate; [reflexivity|f_equal; auto..]. Qed.
Lemma no_arrays m dv ix nix : Forall2 (stands m dv) ix nix -> existsb is_array nix = negb (forallb (fun i => negb (is_sym i)) ix).
Proof. induction 1 as [|i k ix nix S F IH]; [reflexivity|]. destruct i, k; cbn in *; try contradiction; auto. Qed.
Lemma stands_arrays m dv ix nix : Forall2 (stands m dv) ix nix -> Forall2 (yields m dv) (arrays ix) (entries_of nix).
Proof. induction 1 as [|i k ix nix S F IH]; [constructor|]. destruct i, k; cbn in *; try contradiction; auto. Qed.
Lemma stands_app m l o c dv ix nix : Forall2 (stands m dv) ix nix -> Forall2 (stands (Pym (p_syms m ++ l) o c) dv) ix nix.
Proof. apply PyProofs.Forall2_imp. intros [] []; cbn; auto. apply yields_app. Qed.

(** What [AdvancedIndexing] is given. *)
Lemma aix_spec sh ix ai : rmap (aix sh) ix = Ok ai -> map is_arr ai = map is_sym ix.
Proof.
  revert ai; induction ix as [|i ix IH]; intros ai H; cbn [rmap] in H; [injection H as <-; reflexivity|].
  destruct (aix sh i) as [a| |] eqn:E; cbn [rbind] in H; [|discriminate..]. destruct (rmap (aix sh) ix) as [r| |]; cbn [rbind] in H; [|discriminate..]. injection H as <-.
  cbn [map]. rewrite (IH r eq_refl). f_equal. destruct i as [z|x y z|x]; cbn in E; try discriminate; [|now injection E as <-].
  destruct x, y, z; cbn in E; try discriminate. now injection E as <-.
Qed.
Lemma split_adv_spec m dv ix nix : Forall2 (stands m dv) ix nix -> map is_sym (split_adv ix) = spec_of nix.
Proof.
  unfold split_adv, spec_of. induction 1 as [|i k ix nix S F IH]; [reflexivity|].
  destruct i, k; cbn [stands] in S; try contradiction; cbn [flat_map app map is_sym full]; congruence.
Qed.
Lemma split_adv_arrays ix : arrays (split_adv ix) = arrays ix.
Proof. induction ix as [|[| |] ix IH]; cbn in *; [reflexivity|auto|auto|f_equal; auto]. Qed.
Lemma pure_adv ix : forallb (fun i => is_sym i || is_full i) ix = true -> split_adv ix = ix.
Proof. induction ix as [|[z|[] [] []|x] ix IH]; cbn; intros H; try discriminate; [reflexivity|unfold full; f_equal; auto|f_equal; auto]. Qed.

Lemma size_nonneg sh : Forall (fun d => 0 <= d < 2147483648) sh -> prod sh < 2147483648 -> 0 <= shape_to_size sh.
Proof.
  intros F P. destruct sh as [|d sh]; [cbn; lia|]. inversion F as [|? ? Hd F']; subst. unfold shape_to_size. destruct (Z.ltb_spec d 0); [lia|].
  assert (G : forall l a, fold_left Z.mul l a = a * prod l) by (induction l as [|x l IH]; intros a; cbn [fold_left prod]; [lia|]; rewrite IH; ring).
  rewrite G. assert (0 <= prod (d :: sh)).
  { clear -F. induction F as [|x l Hx F IH]; cbn [prod]; [lia|nia]. }
  rewrite Z.mul_1_l. rewrite to_int_small; lia.
Qed.
Lemma sh_packed sh : packed sh (shape_to_strides sh).
Proof. induction sh as [|d sh IH]; [exact I|]. rewrite ShapeProofs.strides_cons. cbn [packed]. split; [left; unfold itemsize; lia|exact IH]. Qed.

(** [BasicIndexing], undone. *)
Lemma basic_inv m dv x s a ix y m' : nth_error (p_syms m) x = Some s -> Forall (fun d => 0 <= d < 2147483648) (s_shape s) -> prod (s_shape s) < 2147483648 ->
  yields m dv x a -> Z.of_nat (length a) = prod (s_shape s) -> basic x ix m = Ok (y, m') ->
  exists ci ct, rmap to_sidx ix = Ok ci /\ accepts (s_shape s) ci /\ y = length (p_syms m) /\
    m' = Pym (p_syms m ++ [Sym (KBasic ci) [x] (sel_shape (s_shape s) ci) ct]) (p_obj m) (p_cons m) /\
    forall w, all_some (map (fun o => nth_error a (Z.to_nat o)) (selected (s_shape s) ci)) = Some w -> yields m' dv y w.
Proof.
  intros Hx Hd Hp Hy La E. unfold basic, bind, look, lift, emit in E. rewrite Hx in E. cbn [rbind] in E.
  destruct (rmap to_sidx ix) as [ci| |] eqn:Ec; cbn [rbind] in E; [|discriminate..]. unfold basic_new in E.
  destruct (BasicModel.parse _ _ _ _ ci) as [p| |] eqn:Ep; cbn [rbind] in E; [|discriminate..].
  destruct (is_contiguous (p_shape p) (p_strides p)) as [ct|]; cbn [rbind fst snd] in E; [|discriminate]. injection E as <- <-.
  assert (Hd' : Forall (fun d => 0 <= d <= SMAX) (s_shape s)) by (eapply Forall_impl; [|exact Hd]; cbn; unfold SMAX; intros; lia).
  assert (Ct : s_contig s = true).
  { unfold BasicModel.parse in Ep. destruct (Nat.ltb _ _); [discriminate|]. destruct (Nat.ltb _ _); [discriminate|]. destruct (s_contig s); [reflexivity|discriminate]. }
  rewrite Ct in Ep. destruct (C36_selects _ _ _ _ _ (size_nonneg _ Hd Hp) (sh_packed _) Hd' Ep) as (A & Es & _).
  exists ci, ct. rewrite Es. repeat (split; [reflexivity || exact A|]). intros w W.
  eapply y_op with (ins := [a]); [cbn [p_syms]; rewrite nth_error_app2, Nat.sub_diag by lia; reflexivity|reflexivity| |].
  - cbn [s_pred]. constructor; [|constructor]. apply yields_app. exact Hy.
  - cbn [s_cls s_pred shapes_of map meaning]. rewrite (shape_app _ _ _ _ _ _ Hx). unfold shape_at. rewrite Hx. unfold view_fun.
    destruct (Z.ltb_spec (Z.of_nat (length a)) 2147483648); [|lia].
    assert (D : dynamic (s_shape s) = false).
    { destruct (s_shape s) as [|d t]; [reflexivity|]. inversion Hd; subst. unfold dynamic. cbn. apply Z.ltb_ge. lia. }
    unfold ViewSpec.cur_shape. rewrite D. exact W.
Qed.
(** [AdvancedIndexing], undone. *)
Lemma advanced_inv m dv x s a ix vs y m' : nth_error (p_syms m) x = Some s -> yields m dv x a -> Forall2 (yields m dv) (arrays ix) vs -> dynamic (s_shape s) = false ->
  advanced x ix m = Ok (y, m') ->
  exists ai sh, rmap (aix (shape_at m)) ix = Ok ai /\ length ix = length (s_shape s) /\
    y = length (p_syms m) /\ m' = Pym (p_syms m ++ [Sym (KAdv (map is_sym ix)) (x :: arrays ix) sh true]) (p_obj m) (p_cons m) /\
    (forall n, (forall z, In z (arrays ix) -> shape_at m z = [Z.of_nat n]) -> sh = ins (result_axis (map is_sym ix)) (Z.of_nat n) (pick false (map is_sym ix) (s_shape s))) /\
    forall w, adv_fun (s_shape s) 0 (map is_sym ix) (a :: vs) = Some w -> yields m' dv y w.
Proof.
  intros Hx Hy Hv D E. unfold advanced, bind in E. unfold look at 1 in E. rewrite Hx in E.
  destruct (looks (arrays ix) m) as [[ss m1]| |] eqn:El; [|discriminate..].
  assert (m1 = m) as ->.
  { clear -El. revert ss m1 El. induction (arrays ix) as [|z l IH]; intros ss m1 El; cbn [looks] in El; [now injection El as _ <-|].
    unfold bind, look in El. destruct (nth_error (p_syms m) z); [|discriminate]. destruct (looks l m) as [[t m2]| |] eqn:E2; [|discriminate..].
    injection El as _ <-. symmetry. exact (eq_sym (IH _ _ eq_refl)). }
  unfold lift, emit in E. destruct (rmap (aix (shape_at m)) ix) as [ai| |] eqn:Ea; cbn [rbind] in E; [|discriminate..].
  destruct (adv_new true (s_shape s) (Some 0) ai) as [r| |] eqn:Er; cbn [rbind] in E; [|discriminate..]. injection E as <- <-.
  destruct (adv_new_ok _ _ _ _ _ Er) as (OK & Esh & Esp). rewrite (aix_spec _ _ _ Ea) in Esp.
  exists ai, (ad_oshape r). split; [reflexivity|]. rewrite Esp. split; [|split; [reflexivity|split; [reflexivity|split]]].
  - destruct (adv_new_inv _ _ _ _ _ Er) as (L & _). rewrite L. rewrite <- (map_length is_arr ai), (aix_spec _ _ _ Ea). now rewrite map_length.
  - intros n Hn. rewrite (shape_ok _ OK), Esh, Esp. unfold adv_shape.
    destruct (adv_new_inv _ _ _ _ _ Er) as (_ & _ & sh0 & src & i & lo0 & hi0 & Hn0 & _ & _ & _ & _ & _ & _ & _ & ->). cbn [ad_ishape].
    assert (sh0 = [Z.of_nat n]) as ->; [|reflexivity].
    apply nth_error_In in Hn0. clear -Ea Hn Hn0. revert ai Ea Hn0. induction ix as [|k ix IH]; intros ai Ea Hn0; cbn [rmap] in Ea; [injection Ea as <-; destruct Hn0|].
    destruct (aix (shape_at m) k) as [a0| |] eqn:Ek; cbn [rbind] in Ea; [|discriminate..]. destruct (rmap (aix (shape_at m)) ix) as [t| |] eqn:Et; cbn [rbind] in Ea; [|discriminate..].
    injection Ea as <-. destruct Hn0 as [->|Hn0].
    + destruct k as [z|[] [] []|z]; cbn in Ek; try discriminate. injection Ek as <- _ _ _ _. apply Hn. cbn. now left.
    + apply (IH (fun z Hz => Hn z ltac:(cbn; apply in_or_app; now right)) _ eq_refl Hn0).
  - intros w W. eapply y_op with (ins := a :: vs); [cbn [p_syms]; rewrite nth_error_app2, Nat.sub_diag by lia; reflexivity|reflexivity| |].
    + cbn [s_pred]. constructor; [apply yields_app; exact Hy|]. eapply PyProofs.Forall2_imp; [|exact Hv]. intros. now apply yields_app.
    + cbn [s_cls s_pred shapes_of map meaning]. rewrite (shape_app _ _ _ _ _ _ Hx). unfold shape_at at 1 2. rewrite Hx, D. exact W.
Qed.
