(** Every operation of the front end keeps a model in order. *)
From Verif Require Import Base Num SliceModel ShapeModel StateDataModel NodeSpec BinaryModel BasicModel ViewModel ElemModel NaryModel
  ReduceModel BoundsModel PermModel AdvModel PyModel EqModel FileModel FileProofs2.
Local Open Scope Z_scope.

Lemma arr_none m x : inv m -> arr m x -> good m m x.
Proof. intros. split; [|split]; auto. apply ext_refl. Qed.
Lemma good_trans m m1 m2 x y : good m m1 x -> good m1 m2 y -> good m m2 y.
Proof. intros (_ & E & _) (I & E' & A). split; [|split]; auto. eapply ext_trans; eauto. Qed.

Lemma zlist_eqb_eq : forall a b, zlist_eqb a b = true -> a = b.
Proof. intros a b. unfold zlist_eqb. destruct (list_eq_dec Z.eq_dec a b); [auto|discriminate]. Qed.
Lemma size_static_dyn s : dynamic s = false -> s = [] \/ exists d t, s = d :: t /\ 0 <= d.
Proof. destruct s as [|d t]; cbn; intros H; [now left|right]. exists d, t. split; auto. lia. Qed.
(** An operand added to an n-ary operation. *)
Lemma nary_more l s t : nary_new l = Ok s -> dynamic t = false -> zlist_eqb s t = true -> nary_new (l ++ [t]) = Ok s.
Proof.
  unfold nary_new. destruct l as [|a l]; [discriminate|]. intros H D Z. cbn [app]. destruct (existsb _ (a :: l)) eqn:X; [discriminate H|]. destruct (forallb _ (a :: l)) eqn:F; [|discriminate H].
  injection H as ->. change (s :: l ++ [t]) with ((s :: l) ++ [t]). rewrite existsb_app, forallb_app, X, F. cbn [existsb forallb orb andb].
  apply zlist_eqb_eq in Z. subst t. cbn [existsb] in X. apply orb_false_elim in X as [X _]. rewrite X. cbn [orb]. cbn [forallb] in F. apply andb_prop in F as [F _]. rewrite F. reflexivity.
Qed.
Lemma nth_lset_same {A} (l : list A) x v : (x < length l)%nat -> nth_error (lset x v l) x = Some v.
Proof. revert x. induction l as [|a l IH]; intros [|x] H; cbn in *; try lia; auto. apply IH. lia. Qed.
Lemma nth_lset_other {A} (l : list A) x y v : x <> y -> nth_error (lset x v l) y = nth_error l y.
Proof. revert x y. induction l as [|a l IH]; intros [|x] [|y] H; cbn; try reflexivity; try lia. apply IH. lia. Qed.
Lemma add_node_good o x y m m' s : inv m -> arr m x -> arr m y -> nth_error (p_syms m) x = Some s -> s_cls s = KNary o -> add_node x y m = Ok (tt, m') -> good m m' x.
Proof.
  intros (I1 & I2 & I3) A B S C E. unfold add_node in E. inv1 E. assert (a = s) by congruence. subst a. destruct (dynamic (s_shape a0)) eqn:D; [discriminate E|].
  destruct (zlist_eqb (s_shape s) (s_shape a0)) eqn:Z; cbn [negb] in E; [|discriminate E]. injection E as <-.
  set (m' := Pym _ (p_obj m) (p_cons m)).
  assert (X : ext m m').
  { intros z t T. destruct (Nat.eq_dec x z) as [<-|N]; cbn [m' p_syms].
    - rewrite nth_lset_same by (apply nth_error_Some; congruence). eexists. split; [reflexivity|]. assert (t = s) by congruence. subst t. repeat split; auto. intros K. now specialize (K o).
    - rewrite nth_lset_other by assumption. exists t. auto. }
  split; [|split]; auto; [|eapply ext_arr; eauto]. split; [|split].
  - intros z t T. cbn [m' p_syms] in T. destruct (Nat.eq_dec x z) as [<-|N].
    + rewrite nth_lset_same in T by (apply nth_error_Some; congruence). injection T as <-. pose proof (fine_ext _ _ _ _ X (I1 _ _ S)) as H. unfold fine in *. cbn [s_cls s_pred s_shape s_contig].
      rewrite C in *. destruct H as (F & H & K). split; [|split]; auto.
      * apply Forall_app. split; auto. constructor; [eapply ext_arr; eauto|constructor].
      * rewrite map_app. cbn [map]. apply nary_more; auto; rewrite (ext_shape _ _ _ X B), (shape_at_some _ _ _ E1); auto.
    + rewrite nth_lset_other in T by assumption. eapply fine_ext; eauto.
  - cbn [m' p_obj]. intros z Hz. eapply goal_ext; eauto.
  - cbn [m' p_cons]. eapply Forall_impl; [|exact I3]. intros. eapply goal_ext; eauto.
Qed.
Lemma inplace_good o x y m z m' : inv m -> arr m x -> arr m y -> inplace o x y m = Ok (z, m') -> good m m' z.
Proof.
  intros I A B E. unfold inplace in E. apply bind_inv in E as (s & m1 & E1 & E). apply look_inv in E1 as [-> S]. destruct (same_nop o (s_cls s)) eqn:N.
  - apply bind_inv in E as ([] & m1 & E1 & E). inv1 E. destruct (s_cls s) eqn:C; try (destruct o; discriminate N). exact (add_node_good _ _ _ _ _ s I A B S C E1).
  - apply (nary_good o [x; y]); auto.
Qed.

Lemma arrays_full n : arrays (repeat full n) = [].
Proof. induction n; auto. Qed.
Lemma arrays_app a b : arrays (a ++ b) = arrays a ++ arrays b.
Proof. unfold arrays. apply flat_map_app. Qed.
Lemma arrays_split ix : arrays (split_adv ix) = arrays ix.
Proof. induction ix as [|[z|a b c|x] ix IH]; cbn in *; auto. f_equal. exact IH. Qed.
Lemma array_getitem_good x ix m y m' : inv m -> Forall (arr m) (x :: arrays ix) -> array_getitem x ix m = Ok (y, m') -> good m m' y.
Proof.
  intros I F E. inversion F as [|? ? Fx Fi]; subst. unfold array_getitem in E. apply bind_inv in E as (s & m1 & E1 & E). apply look_inv in E1 as [-> S].
  cbv zeta in E. revert E. set (jx := ix ++ repeat full _). assert (EA : arrays jx = arrays ix) by (unfold jx; now rewrite arrays_app, arrays_full, app_nil_r).
  destruct (forallb _ jx); [eapply basic_good; eauto|]. destruct (forallb _ jx).
  - intros E. apply (advanced_good x jx); auto. rewrite EA. exact F.
  - intros E. apply bind_inv in E as (b & m1 & E1 & E). pose proof (basic_good _ _ _ _ _ I Fx E1) as G. eapply good_trans; [exact G|]. destruct G as (I' & X & A).
    apply (advanced_good b (split_adv jx)); auto. rewrite arrays_split, EA. constructor; auto. eapply ext_arrs; eauto.
Qed.
Lemma getitem_good x ix m y m' : inv m -> Forall (arr m) (x :: arrays ix) -> getitem x ix m = Ok (y, m') -> good m m' y.
Proof.
  intros I F E. unfold getitem in E. apply bind_inv in E as (s & m1 & E1 & E). apply look_inv in E1 as [-> S].
  destruct (s_cls s) eqn:C; try (apply (array_getitem_good _ _ _ _ _ I F E); fail). destruct (s_pred s) as [|a idx] eqn:P; [apply (array_getitem_good _ _ _ _ _ I F E)|].
  apply bind_inv in E as (sa & m1 & E1 & E). apply look_inv in E1 as [-> Sa].
  assert (Aa : arr m a). { pose proof (proj1 I _ _ S) as H. unfold fine in H. rewrite C, P in H. destruct H as [H _]. now inversion H. }
  inversion F as [|? ? Fx Fi]; subst.
  destruct (s_cls sa); try (apply (array_getitem_good _ _ _ _ _ I F E); fail). destruct (s_shape sa) as [|d0 [|d1 [|]]]; try (apply (array_getitem_good _ _ _ _ _ I F E); fail).
  destruct spec as [|[|] [|[|] [|]]]; try (apply (array_getitem_good _ _ _ _ _ I F E); fail); destruct idx as [|i0 [|]]; try (apply (array_getitem_good _ _ _ _ _ I F E); fail);
    destruct ix as [|j0 [|j1 [|]]]; try (destruct j0; apply (array_getitem_good _ _ _ _ _ I F E); fail); try (apply (array_getitem_good _ _ _ _ _ I F E); fail).
  all: try (destruct j0; apply (array_getitem_good _ _ _ _ _ I F E)).
  all: destruct j0, j1; try (apply (array_getitem_good _ _ _ _ _ I F E); fail); (match type of E with (if ?b then _ else _) _ = _ => destruct b end; [|apply (array_getitem_good _ _ _ _ _ I F E)]);
      refine (permutation_good _ _ _ _ _ I Aa _ E); rewrite Forall_forall in Fi; apply Fi; cbn; auto.
Qed.

Lemma size_good x m r m' : inv m -> arr m x -> size x m = Ok (r, m') -> inv m' /\ ext m m'.
Proof.
  intros I A E. unfold size in E. apply bind_inv in E as (s & m1 & E1 & E). apply look_inv in E1 as [-> S]. destruct (dynamic (s_shape s)).
  - apply bind_inv in E as (z & m1 & E1 & E). inv1 E. assert (G : good m m1 z).
    { eapply emit_good; eauto; [reflexivity|]. intros mm X. cbn [fine s_cls s_pred s_shape s_contig]. split; [constructor; [eapply ext_arr; eauto|constructor]|]. exists x. auto. }
    destruct G as (? & ? & _). auto.
  - inv1 E. split; auto. apply ext_refl.
Qed.
Lemma pow_loop x : forall l m y z m', inv m -> Forall (arr m) l -> arr m y -> (forall i, In i l -> i = x) -> pfor l imul y m = Ok (z, m') -> good m m' z.
Proof.
  induction l as [|i l IH]; intros m y z m' I F A H E; cbn [pfor] in E.
  - inv1 E. now apply arr_none.
  - apply bind_inv in E as (b & m1 & E1 & E). inversion F; subst. pose proof (inplace_good _ _ _ _ _ _ I A ltac:(eassumption) E1) as G. eapply good_trans; [exact G|]. destruct G as (I' & X & B).
    eapply IH; eauto; [eapply ext_arrs; eauto|]. intros j Hj. apply H. now right.
Qed.
Lemma pow_good x e m y m' : inv m -> arr m x -> pow x e m = Ok (y, m') -> good m m' y.
Proof.
  intros I A E. unfold pow in E. destruct (e =? 2); [eapply unop_good; eauto|]. destruct (0 <? e); [|discriminate E].
  eapply (pow_loop x (repeat x (Z.to_nat (e - 1)))); [exact I| |exact A|intros i Hi; eapply repeat_spec; eauto|exact E]. apply Forall_forall. intros i Hi. apply repeat_spec in Hi. now subst.
Qed.
Lemma goal_same m o cs : inv m -> (forall x, o = Some x -> goal_ok m x) -> Forall (goal_ok m) cs -> inv (Pym (p_syms m) o cs) /\ ext m (Pym (p_syms m) o cs).
Proof.
  intros (A & B & C) H K. assert (X : ext m (Pym (p_syms m) o cs)) by (intros x s S; exists s; auto). split; auto. split; [|split].
  - intros x s S. eapply fine_ext; eauto.
  - intros x Hx. eapply goal_ext; eauto.
  - eapply Forall_impl; [|exact K]. intros. eapply goal_ext; eauto.
Qed.
Lemma minimize_good x m u m' : inv m -> arr m x -> minimize x m = Ok (u, m') -> inv m' /\ ext m m'.
Proof.
  intros I A E. unfold minimize in E. apply bind_inv in E as (s & m1 & E1 & E). apply look_inv in E1 as [-> S]. destruct (shape_to_size (s_shape s) =? 1) eqn:Z; [|discriminate E]. injection E as <- <-.
  apply goal_same; auto; [|apply I]. intros y Hy. injection Hy as <-. split; auto. rewrite (shape_at_some _ _ _ S). lia.
Qed.
Lemma constraint_good x m u m' : inv m -> arr m x -> add_constraint x m = Ok (u, m') -> inv m' /\ ext m m'.
Proof.
  intros I A E. unfold add_constraint in E. apply bind_inv in E as (s & m1 & E1 & E). apply look_inv in E1 as [-> S]. destruct (shape_to_size (s_shape s) =? 1) eqn:Z; [|discriminate E]. injection E as <- <-.
  apply goal_same; auto; [apply I|]. apply Forall_app. split; [apply I|]. constructor; [|constructor]. split; auto. rewrite (shape_at_some _ _ _ S). lia.
Qed.

(** The parts of a disjoint decision. *)
Lemma parts_inv one sh main : forall k j xs m ys m', pfor (seq j k) (fun xs i => do x <- emit (one i) [main] sh true ; ret (xs ++ [x])) xs m = Ok (ys, m') ->
  m' = Pym (p_syms m ++ map (fun i => Sym (one i) [main] sh true) (seq j k)) (p_obj m) (p_cons m).
Proof.
  induction k as [|k IH]; intros j xs m ys m' E; cbn [seq pfor map] in *.
  - inv1 E. rewrite app_nil_r. now destruct m.
  - apply bind_inv in E as (b & m1 & E1 & E). apply bind_inv in E1 as (x & m2 & E1 & E2). unfold emit in E1. injection E1 as <- <-. inv1 E2. apply IH in E. cbn [p_syms p_obj p_cons] in E.
    rewrite <- app_assoc in E. exact E.
Qed.
Lemma nth_map_seq {A} (f : nat -> A) k i a : nth_error (map f (seq 0 k)) i = Some a -> (i < k)%nat /\ a = f i.
Proof.
  intros H. assert (L : (i < k)%nat) by (rewrite <- (seq_length k 0), <- (map_length f); apply nth_error_Some; congruence). split; auto.
  rewrite nth_error_map in H. rewrite (nth_error_nth' _ 0%nat) in H by (now rewrite seq_length). rewrite seq_nth in H by assumption. cbn in H. congruence.
Qed.
Lemma nth_map_seq' {A} (f : nat -> A) k i : (i < k)%nat -> nth_error (map f (seq 0 k)) i = Some (f i).
Proof. intros H. rewrite nth_error_map, (nth_error_nth' _ 0%nat) by (now rewrite seq_length). now rewrite seq_nth. Qed.
Lemma lists_good n k m r m' : inv m -> disjoint_lists n k m = Ok (r, m') -> inv m' /\ ext m m'.
Proof.
  intros I E. unfold disjoint_lists in E. apply bind_inv in E as (main & m1 & E1 & E). apply bind_inv in E as (xs & m2 & E2 & E). inv1 E. unfold emit in E1. injection E1 as <- <-.
  apply parts_inv in E2. cbn [p_syms p_obj p_cons] in E2. rewrite <- app_assoc in E2. subst m2. split; [|apply ext_app]. apply inv_app; auto. intros i s Hs.
  assert (Main : nth_error (p_syms (Pym (p_syms m ++ [Sym (KLists n k) [] [-1] true] ++ map (fun i => Sym (KListOf (length (p_syms m)) n k i) [length (p_syms m)] [-1] true) (seq 0 k)) (p_obj m) (p_cons m)))
      (length (p_syms m)) = Some (Sym (KLists n k) [] [-1] true)).
  { cbn [p_syms]. rewrite nth_error_app2, Nat.sub_diag by lia. reflexivity. }
  destruct i as [|i]; cbn [app nth_error] in Hs.
  - injection Hs as <-. rewrite Nat.add_0_r. cbn [fine s_cls s_pred s_shape s_contig]. repeat split; auto. intros i Hi. eexists. cbn [p_syms].
    rewrite nth_error_app2 by lia. replace (length (p_syms m) + S i - length (p_syms m))%nat with (S i) by lia. cbn [app nth_error]. rewrite nth_map_seq' by assumption. split; reflexivity.
  - apply nth_map_seq in Hs as [Hi ->]. cbn [fine s_cls s_pred s_shape s_contig]. repeat split; auto. eexists. split; [exact Main|reflexivity].
Qed.
Lemma bits_good n k m r m' : inv m -> disjoint_bit_sets n k m = Ok (r, m') -> inv m' /\ ext m m'.
Proof.
  intros I E. unfold disjoint_bit_sets in E. apply bind_inv in E as (main & m1 & E1 & E). apply bind_inv in E as (xs & m2 & E2 & E). inv1 E. unfold emit in E1. injection E1 as <- <-.
  apply parts_inv in E2. cbn [p_syms p_obj p_cons] in E2. rewrite <- app_assoc in E2. subst m2. split; [|apply ext_app]. apply inv_app; auto. intros i s Hs.
  assert (Main : nth_error (p_syms (Pym (p_syms m ++ [Sym (KBits n k) [] [-1] true] ++ map (fun i => Sym (KBitOf (length (p_syms m)) n k i) [length (p_syms m)] [n] true) (seq 0 k)) (p_obj m) (p_cons m)))
      (length (p_syms m)) = Some (Sym (KBits n k) [] [-1] true)).
  { cbn [p_syms]. rewrite nth_error_app2, Nat.sub_diag by lia. reflexivity. }
  destruct i as [|i]; cbn [app nth_error] in Hs.
  - injection Hs as <-. rewrite Nat.add_0_r. cbn [fine s_cls s_pred s_shape s_contig]. repeat split; auto. intros i Hi. eexists. cbn [p_syms].
    rewrite nth_error_app2 by lia. replace (length (p_syms m) + S i - length (p_syms m))%nat with (S i) by lia. cbn [app nth_error]. rewrite nth_map_seq' by assumption. split; reflexivity.
  - apply nth_map_seq in Hs as [Hi ->]. cbn [fine s_cls s_pred s_shape s_contig]. repeat split; auto. eexists. split; [exact Main|reflexivity].
Qed.

Lemma void_inv {A} (p : py A) m u m' : void p m = Ok (u, m') -> exists a, p m = Ok (a, m').
Proof. intros E. unfold void in E. apply bind_inv in E as (a & m1 & E1 & E). inv1 E. eauto. Qed.
Lemma good_inv m m' x : good m m' x -> inv m' /\ ext m m'.
Proof. intros (? & ? & _). auto. Qed.
Lemma perform_good o m u m' : inv m -> perform o m = Ok (u, m') -> inv m' /\ ext m m'.
Proof.
  intros I E. unfold perform in E. apply bind_inv in E as (v & m1 & E1 & E). apply array_symbols_inv in E1 as [-> F].
  destruct o; cbn [operands] in F; try (apply void_inv in E as [r E]);
    repeat match goal with H : Forall _ (_ :: _) |- _ => inversion H; subst; clear H end.
  - eapply good_inv, emit_good; eauto; [reflexivity|]. intros. cbn. auto.
  - unfold integer in E. destruct (_ && _) eqn:B1; [|discriminate E]. destruct (_ || _) eqn:B2; [discriminate E|].
    eapply good_inv, emit_good; eauto; [reflexivity|]. intros. cbn [fine s_cls s_pred s_shape s_contig]. repeat split; auto. intros mm'. unfold integer. now rewrite B1, B2.
  - eapply good_inv, emit_good; eauto; [reflexivity|]. intros. cbn. eauto.
  - eapply good_inv, emit_good; eauto; [reflexivity|]. intros. cbn. eauto.
  - eapply lists_good; eauto.
  - eapply bits_good; eauto.
  - eapply good_inv, (getitem_good x ix); [exact I|constructor; assumption|exact E].
  - eapply good_inv, unop_good; eauto.
  - eapply good_inv, binop_good; [exact I| | |exact E]; assumption.
  - eapply good_inv, (nary_good o xs); eauto.
  - eapply good_inv, inplace_good; [exact I| | |exact E]; assumption.
  - eapply good_inv, red_good; eauto.
  - eapply good_inv, where_good; [exact I| | | |exact E]; assumption.
  - eapply size_good; eauto.
  - eapply good_inv, pow_good; eauto.
  - unfold binary in E. destruct (existsb (fun d => d <? 0) sh) eqn:B; [discriminate E|]. eapply good_inv, emit_good; eauto; [reflexivity|].
    intros. cbn [fine s_cls s_pred s_shape s_contig]. repeat split; auto. intros mm'. unfold binary. now rewrite B.
  - eapply good_inv, reshape_good; eauto.
  - eapply good_inv, (sum_axis_good x a); [exact I| |exact E]; assumption.
  - eapply minimize_good; eauto.
  - eapply constraint_good; eauto.
Qed.
Lemma build_inv ops m : build ops = Ok m -> inv m.
Proof.
  unfold build. intros H. assert (G : forall l m0 u m', inv m0 -> pfor l (fun _ o => perform o) tt m0 = Ok (u, m') -> inv m').
  { clear. induction l as [|o l IH]; intros m0 u m' I E; cbn [pfor] in E.
    - now inv1 E.
    - apply bind_inv in E as ([] & m1 & E1 & E). eapply IH; [|exact E]. eapply perform_good; eauto. }
  destruct (pfor ops _ tt no_model) as [[u m']| |] eqn:E; try discriminate H. injection H as ->. eapply G; [|exact E].
  split; [|split]; cbn; [intros [|x] s Hs; discriminate Hs|discriminate|constructor].
Qed.
