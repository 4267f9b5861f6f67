(** Proofs about [**], [+=] and [*=]. *)
From Verif Require Import Base Num SliceModel ShapeModel BinaryModel StateDataModel BoundsModel NaryModel ReduceModel NodeSpec NodeShape NarySpec ElemSpec ProposeSpec PyModel PySpec PyProofs EqSpec PowSpec GetProofs3.

Lemma combine_map_self {A B C} (f : A -> B) (g : A -> C) a : combine (map f a) (map g a) = map (fun x => (f x, g x)) a.
Proof. induction a; cbn; congruence. Qed.
Lemma fold_power a n : forall k, fold_left (fun acc b => zip_with Qcmult b acc) (repeat a n) (power k a) = power (k + n) a.
Proof.
  induction n as [|n IH]; intros k; cbn [repeat fold_left]; [now rewrite Nat.add_0_r|].
  assert (E : zip_with Qcmult a (power k a) = power (S k) a).
  { unfold zip_with, power. rewrite <- (map_id a) at 1. rewrite combine_map_self, map_map. apply map_ext. intros x. reflexivity. }
  rewrite E, IH. f_equal. lia.
Qed.
Lemma power_1 a : power 1 a = a.
Proof. unfold power. rewrite <- (map_id a) at 2. apply map_ext. intros x. cbn. ring. Qed.
Lemma nary_power a n : nary_fun Qcmult (S n) (repeat a (S n)) = Some (power (S n) a).
Proof.
  unfold nary_fun. cbn [repeat length]. rewrite repeat_length, Nat.eqb_refl. cbn [andb].
  assert (F : forallb (fun b : list num => length b =? length a) (repeat a n) = true) by (apply forallb_forall; intros b I; apply repeat_spec in I; subst; apply Nat.eqb_refl).
  rewrite F. f_equal. rewrite <- (power_1 a) at 2. rewrite fold_power. reflexivity.
Qed.

Section Pow.
Variables (m : pym) (dv : nat -> list num) (x : nat) (s : sym) (a : list num).
Hypothesis Hs : nth_error (p_syms m) x = Some s.
Hypothesis Ya : yields m dv x a.
Hypothesis W : wf_shape (s_shape s).
Lemma x_lt : x < length (p_syms m). Proof. apply nth_error_Some. congruence. Qed.
Lemma look_x l o c : look x (Pym (p_syms m ++ l) o c) = Ok (s, Pym (p_syms m ++ l) o c).
Proof. unfold look. cbn [p_syms]. rewrite nth_error_app1 by apply x_lt. now rewrite Hs. Qed.
Lemma zlist_refl l : zlist_eqb l l = true.
Proof. now destruct (zlist_eqb_spec l l). Qed.

Lemma square_value y m' : unop USquare x m = Ok (y, m') -> yields m' dv y (power 2 a) /\ kept m m' dv (fun _ => False).
Proof.
  unfold unop, bind, look. rewrite Hs. cbn. intros [= <- <-]. split.
  - eapply y_op with (ins := [a]); [cbn [p_syms]; rewrite nth_error_app2, Nat.sub_diag by lia; reflexivity|reflexivity|cbn [s_pred]; constructor; [now apply yields_app|constructor]|].
    cbn. f_equal. unfold power. apply map_ext. intros q. cbn. ring.
  - intros z v _. apply yields_app.
Qed.
Lemma square_ok : exists y m', unop USquare x m = Ok (y, m').
Proof. unfold unop, bind, look. rewrite Hs. cbn. eexists _, _. reflexivity. Qed.

(** The product being built. *)
Definition building (k : nat) : pym := Pym (p_syms m ++ [Sym (KNary NMul) (repeat x k) (s_shape s) true]) (p_obj m) (p_cons m).
Lemma times_more r : dynamic (s_shape s) = false -> forall k, pfor (repeat x r) imul (length (p_syms m)) (building k) = Ok (length (p_syms m), building (k + r)).
Proof.
  intros D. induction r as [|r IH]; intros k; cbn [repeat pfor]; [now rewrite Nat.add_0_r|]. unfold bind at 1.
  assert (E : imul (length (p_syms m)) x (building k) = Ok (length (p_syms m), building (S k))).
  { assert (B : look (length (p_syms m)) (building k) = Ok (Sym (KNary NMul) (repeat x k) (s_shape s) true, building k)) by (unfold look, building; cbn [p_syms]; now rewrite nth_error_app2, Nat.sub_diag by lia).
    assert (X : look x (building k) = Ok (s, building k)) by apply look_x.
    unfold imul, inplace, bind. rewrite B. cbn [s_cls same_nop]. unfold add_node, bind. rewrite B, X. rewrite D. cbn [s_shape]. rewrite zlist_refl. cbn [negb].
    unfold ret. f_equal. f_equal. unfold building. cbn [p_syms p_obj p_cons s_cls s_pred s_contig]. f_equal.
    assert (L : forall (l : list sym) u w, lset (length l) u (l ++ [w]) = l ++ [u]) by (induction l as [|? l IHl]; intros; cbn; [reflexivity|now rewrite IHl]). rewrite L.
    do 3 f_equal. clear. induction k; cbn; [reflexivity|]. now rewrite IHk. }
  rewrite E, IH. do 2 f_equal. f_equal. lia.
Qed.
Lemma pow_value e : (0 < e)%Z -> (2 < e -> dynamic (s_shape s) = false /\ s_cls s <> KNary NMul)%Z ->
  exists y m', pow x e m = Ok (y, m') /\ yields m' dv y (power (Z.to_nat e) a) /\ kept m m' dv (fun _ => False).
Proof.
  intros He Hb. unfold pow. destruct (Z.eqb_spec e 2) as [->|N2]; [destruct square_ok as (y & m' & E); exists y, m'; split; [exact E|now apply square_value]|].
  destruct (Z.ltb_spec 0 e); [|lia]. destruct (Z.eq_dec e 1) as [->|N1]; [cbn; exists x, m; split; [reflexivity|]; split; [now rewrite power_1|intros z v _ Y; exact Y]|].
  destruct (Hb ltac:(lia)) as [D NC]. replace (Z.to_nat (e - 1)) with (S (Z.to_nat (e - 2))) by lia. cbn [repeat pfor]. unfold bind.
  assert (E : imul x x m = Ok (length (p_syms m), building 2)).
  { unfold imul, inplace, bind. unfold look at 1. rewrite Hs. assert (same_nop NMul (s_cls s) = false) as -> by (destruct (s_cls s) as [| | | | | | | | | | | | |o| | | | | | |]; try reflexivity; destruct o; try reflexivity; congruence).
    unfold nary, bind. cbn [looks]. unfold bind, look. rewrite Hs. cbn beta iota. rewrite Hs. unfold lift, ret. cbn [map]. unfold nary_new. cbn [existsb forallb]. rewrite zlist_refl, size_neg by exact W. rewrite D. cbn. reflexivity. }
  rewrite E, times_more by exact D. exists (length (p_syms m)), (building (2 + Z.to_nat (e - 2))). split; [reflexivity|]. split; [|intros z v _; apply yields_app].
  replace (2 + Z.to_nat (e - 2)) with (Z.to_nat e) by lia. destruct (Z.to_nat e) as [|k] eqn:Ek; [lia|].
  eapply y_op with (ins := repeat a (S k)); [cbn [building p_syms]; rewrite nth_error_app2, Nat.sub_diag by lia; reflexivity|reflexivity| |].
  - cbn [s_pred]. assert (R : forall mm n, yields mm dv x a -> Forall2 (yields mm dv) (repeat x n) (repeat a n)) by (intros mm n Y; induction n; cbn; constructor; auto).
    apply R. now apply yields_app.
  - cbn [s_cls meaning s_pred]. unfold shapes_of. rewrite map_length, repeat_length. apply nary_power.
Qed.
End Pow.

(** * [+=] and [*=] *)
Definition arith (times : bool) : nop := if times then NMul else NAdd.
Lemma zip_both times a b : length a = length b -> zip_with (nop_func (arith times)) b a = both times a b.
Proof.
  unfold zip_with, both. revert b. induction a as [|p a IH]; intros [|q b] L; try discriminate; [reflexivity|]. cbn [combine map fst snd]. f_equal; [|apply IH; now injection L].
  destruct times; cbn; auto using Qcplus_comm, Qcmult_comm.
Qed.
Lemma fold_zip_length (f : num -> num -> num) l : forall a, Forall (fun b => length b = length a) l -> length (fold_left (fun acc b => zip_with f b acc) l a) = length a.
Proof.
  induction l as [|b l IH]; intros a F; [reflexivity|]. inversion_clear F as [|? ? F1 F2]. cbn [fold_left]. assert (L : length (zip_with f b a) = length a) by (unfold zip_with; rewrite map_length, combine_length; lia).
  rewrite IH; [exact L|]. now rewrite L.
Qed.
Lemma nary_snoc times n ins a b : nary_fun (nop_func (arith times)) n ins = Some a -> length a = length b -> nary_fun (nop_func (arith times)) (S n) (ins ++ [b]) = Some (both times a b).
Proof.
  intros E L. unfold nary_fun in *. destruct ins as [|c rest]; [discriminate|]. cbn [app]. destruct (Nat.eqb_spec (length (c :: rest)) n) as [<-|]; [|discriminate]. cbn [andb] in E.
  destruct (forallb _ rest) eqn:F; [|discriminate]. injection E as E. cbn [length]. rewrite app_length. cbn [length]. replace (S (length rest + 1) =? S (S (length rest))) with true by (symmetry; apply Nat.eqb_eq; lia). cbn [andb].
  rewrite forallb_app, F. cbn [forallb andb]. assert (Fc : Forall (fun b => length b = length c) rest) by (apply Forall_forall; rewrite forallb_forall in F; intros z Iz; now apply Nat.eqb_eq, F).
  pose proof (fold_zip_length (nop_func (arith times)) rest c Fc) as Lc. rewrite E in Lc. rewrite <- L, Lc, Nat.eqb_refl. cbn [andb]. rewrite fold_left_app. cbn [fold_left]. rewrite E, zip_both by exact L. reflexivity.
Qed.

Lemma all_some_inv {A B} (f : A -> option B) l r : all_some (map f l) = Some r -> Forall2 (fun p v => f p = Some v) l r.
Proof.
  revert r. induction l as [|p l IH]; intros r E; cbn in E; [injection E as <-; constructor|]. destruct (f p) eqn:F; [|discriminate]. destruct (all_some (map f l)); [|discriminate]. injection E as <-. constructor; auto.
Qed.
Lemma all_some_intro {A B} (f : A -> option B) l r : Forall2 (fun p v => f p = Some v) l r -> all_some (map f l) = Some r.
Proof. induction 1 as [|p v l r E F IH]; cbn; [reflexivity|]. now rewrite E, IH. Qed.
Lemma value_mono m dv f : forall f' z v, f <= f' -> value f m dv z = Some v -> value f' m dv z = Some v.
Proof.
  induction f as [|f IH]; intros f' z v Lf E; [discriminate|]. destruct f' as [|f']; [lia|]. cbn [value] in *. destruct (nth_error (p_syms m) z) as [sz|]; [|discriminate]. destruct (decided_cls (s_cls sz)); [exact E|].
  destruct (all_some (map (value f m dv) (s_pred sz))) as [ins|] eqn:A; [|discriminate]. apply all_some_inv in A. erewrite all_some_intro; [exact E|]. eapply Forall2_imp; [|exact A]. cbv beta. intros p w Ew. apply (IH f'); [lia|exact Ew].
Qed.
Lemma yields_value m dv z v : yields m dv z v -> exists f, value f m dv z = Some v.
Proof.
  intros Y. induction Y as [z sz Hz Hc|z sz ins v Hz Hc Hp IH Hm] using yields_ind'; [exists 1; cbn; now rewrite Hz, Hc|].
  assert (G : exists f, Forall2 (fun p w => value f m dv p = Some w) (s_pred sz) ins).
  { clear -IH. induction IH as [|p w ps ws (f & E) _ (f' & G)]; [exists O; constructor|]. exists (Nat.max f f'). constructor; [eapply value_mono; [|exact E]; lia|]. eapply Forall2_imp; [|exact G]. cbv beta. intros q u Eq. eapply value_mono; [|exact Eq]; lia. }
  destruct G as [f G]. exists (S f). cbn [value]. rewrite Hz, Hc, (all_some_intro _ _ _ G). exact Hm.
Qed.
Section Inplace.
Variables (m : pym) (dv : nat -> list num) (x y : nat) (s t : sym) (a b : list num) (times : bool).
Hypothesis Hs : nth_error (p_syms m) x = Some s.
Hypothesis Ht : nth_error (p_syms m) y = Some t.
Hypothesis Ya : yields m dv x a.
Hypothesis Yb : yields m dv y b.
Hypothesis L : length a = length b.
Hypothesis W : wf_shape (s_shape s).
Hypothesis D : dynamic (s_shape s) = false.
Hypothesis Sh : s_shape s = s_shape t.
Lemma inplace_new : s_cls s <> KNary (arith times) ->
  exists m', inplace (arith times) x y m = Ok (length (p_syms m), m') /\ yields m' dv (length (p_syms m)) (both times a b) /\ kept m m' dv (fun _ => False).
Proof.
  intros NC. unfold inplace, bind. unfold look at 1. rewrite Hs.
  assert (same_nop (arith times) (s_cls s) = false) as -> by (unfold arith in *; destruct times, (s_cls s) as [| | | | | | | | | | | | |o| | | | | | |]; try reflexivity; destruct o; try reflexivity; congruence).
  unfold nary, bind. cbn [looks]. unfold bind, look. rewrite Hs. cbn beta iota. rewrite Ht. unfold ret, lift. cbn [map]. unfold nary_new. cbn [existsb forallb]. rewrite <- Sh, zlist_refl, size_neg by exact W. rewrite D. cbn [orb andb rbind emit].
  eexists. split; [reflexivity|]. split; [|intros z v _; apply yields_app].
  eapply y_op with (ins := [a; b]); [cbn [p_syms]; rewrite nth_error_app2, Nat.sub_diag by lia; reflexivity|reflexivity|cbn [s_pred]; repeat constructor; now apply yields_app|].
  cbn [s_cls meaning s_pred shapes_of map length]. apply (nary_snoc times 1 [a] a b); [reflexivity|exact L].
Qed.
(** What is not computed from [x] does not notice that it changes. *)
Lemma kept_lset s' o c : s_shape s' = s_shape s -> kept m (Pym (lset x s' (p_syms m)) o c) dv (fun z => reach m z x).
Proof.
  intros Sh' z v N Y. set (m' := Pym _ o c).
  assert (S' : forall z, shape_at m' z = shape_at m z).
  { intros w. unfold shape_at, m'. cbn [p_syms]. destruct (Nat.eq_dec x w) as [<-|Nw]; [|now rewrite nth_error_lset_neq by exact Nw].
    rewrite nth_error_lset_eq by (apply nth_error_Some; congruence). now rewrite Hs. }
  induction Y as [z sz Hz Hc|z sz ins v Hz Hc Hp IH Hm] using yields_ind'.
  - eapply y_dec; [|exact Hc]. unfold m'. cbn [p_syms]. rewrite nth_error_lset_neq; [exact Hz|]. intros <-. apply N. constructor.
  - eapply y_op with (ins := ins); [unfold m'; cbn [p_syms]; rewrite nth_error_lset_neq; [exact Hz|intros <-; apply N; constructor]|exact Hc| |].
    + assert (N' : forall p, In p (s_pred sz) -> ~ reach m p x) by (intros p Ip R; apply N; econstructor; eauto). clear -IH N'. induction IH as [|p q ps qs H IH IHF]; constructor; [apply H, N'; now left|]. apply IHF. intros p' I. apply N'. now right.
    + unfold shapes_of. erewrite map_ext by (intros w; apply S'). exact Hm.
Qed.
(** Evaluation that [x] does not take part in. *)
Lemma value_lset s' o c f : s_shape s' = s_shape s -> value f m dv x = None -> forall z v, value f m dv z = Some v -> value f (Pym (lset x s' (p_syms m)) o c) dv z = Some v.
Proof.
  intros Sh'. set (m' := Pym _ o c).
  assert (S' : forall z, shape_at m' z = shape_at m z).
  { intros w. unfold shape_at, m'. cbn [p_syms]. destruct (Nat.eq_dec x w) as [<-|Nw]; [|now rewrite nth_error_lset_neq by exact Nw].
    rewrite nth_error_lset_eq by (apply nth_error_Some; congruence). now rewrite Hs. }
  induction f as [|f IH]; intros N z v E; [discriminate|]. assert (z <> x) by congruence.
  assert (N' : value f m dv x = None) by (destruct (value f m dv x) eqn:Ex; [|reflexivity]; apply (value_mono m dv f (S f)) in Ex; [congruence|lia]).
  cbn [value] in E |- *. unfold m' at 1. cbn [p_syms]. rewrite nth_error_lset_neq by congruence. destruct (nth_error (p_syms m) z) as [sz|]; [|discriminate]. destruct (decided_cls (s_cls sz)); [exact E|].
  destruct (all_some (map (value f m dv) (s_pred sz))) as [ins|] eqn:A; [|discriminate]. apply all_some_inv in A. erewrite all_some_intro; [|eapply Forall2_imp; [|exact A]; cbv beta; intros p w Ew; exact (IH N' p w Ew)].
  unfold shapes_of in *. erewrite map_ext by (intros w; apply S'). exact E.
Qed.
Lemma inplace_same : s_cls s = KNary (arith times) -> ~ reach m y x ->
  exists m', inplace (arith times) x y m = Ok (x, m') /\ yields m' dv x (both times a b) /\ kept m m' dv (fun z => reach m z x).
Proof.
  intros C NR. unfold inplace, bind. unfold look at 1. rewrite Hs. assert (same_nop (arith times) (s_cls s) = true) as -> by (rewrite C; destruct times; reflexivity).
  unfold add_node, bind, look. rewrite Hs. cbn beta iota. rewrite Ht. rewrite <- Sh, D, zlist_refl. cbn [negb]. unfold ret. eexists. split; [reflexivity|]. split; [|now apply kept_lset].
  set (s' := Sym (s_cls s) (s_pred s ++ [y]) (s_shape s) (s_contig s)). set (m' := Pym _ _ _).
  assert (Yb' : yields m' dv y b) by (apply (kept_lset s'); auto).
  assert (V : exists f v, value f m dv x = None /\ value (S f) m dv x = Some v).
  { destruct (yields_value _ _ _ _ Ya) as [f Ef]. clear -Ef. revert a Ef. induction f as [|f IH]; intros a Ef; [discriminate|]. destruct (value f m dv x) as [v|] eqn:E; [exact (IH v eq_refl)|eauto]. }
  destruct V as (f & v & N & E). assert (v = a) as -> by (eapply yields_unique; [eapply value_yields; exact E|exact Ya]).
  cbn [value] in E. rewrite Hs, C in E. assert (decided_cls (KNary (arith times)) = false) as Dc by (destruct times; reflexivity). rewrite Dc in E.
  destruct (all_some (map (value f m dv) (s_pred s))) as [ins|] eqn:A; [|discriminate]. apply all_some_inv in A.
  eapply y_op with (s := s') (ins := ins ++ [b]); [unfold m'; cbn [p_syms]; apply nth_error_lset_eq; apply nth_error_Some; congruence|cbn; rewrite C; exact Dc| |].
  - cbn [s_pred s']. apply Forall2_app; [|constructor; [exact Yb'|constructor]]. eapply Forall2_imp; [|exact A]. cbv beta. intros p w Ew. eapply value_yields. apply (value_lset s'); [reflexivity|exact N|exact Ew].
  - cbn [s_cls s' s_pred]. rewrite C. assert (Me : forall shs i, meaning (KNary (arith times)) shs i = nary_fun (nop_func (arith times)) (length shs) i) by (intros [|] i; destruct times; reflexivity). rewrite Me in *.
    unfold shapes_of in *. rewrite map_length in *. rewrite app_length. cbn [length]. rewrite Nat.add_1_r. apply nary_snoc; [exact E|exact L].
Qed.
End Inplace.
