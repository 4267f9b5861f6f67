(** What holds of every model that the front end builds. *)
From Verif Require Import Base Num SliceModel ShapeModel StateDataModel NodeSpec BinaryModel BasicModel ViewModel ElemModel NaryModel
  ReduceModel BoundsModel PermModel AdvModel PartialModel PyModel EqModel FileModel.
Local Open Scope Z_scope.

Definition arr (m : pym) (x : nat) : Prop := exists t, nth_error (p_syms m) x = Some t /\ is_array_symbol (s_cls t) = true.
Definition contig_at (m : pym) (x : nat) : bool := match nth_error (p_syms m) x with Some s => s_contig s | None => false end.
Definition const_at (m : pym) (x : nat) : bool := match nth_error (p_syms m) x with Some s => match s_cls s with KConst _ => true | _ => false end | None => false end.

(** Symbol [s] with number [x] is what its constructor makes of its predecessors. *)
Definition fine (m : pym) (x : nat) (s : sym) : Prop :=
  match s_cls s with
  | KConst _ => s_pred s = [] /\ s_contig s = true
  | KInteger lo hi => s_pred s = [] /\ s_contig s = true /\ forall mm, integer (s_shape s) lo hi mm = emit (KInteger lo hi) [] (s_shape s) true mm
  | KList => s_pred s = [] /\ s_contig s = true /\ exists n, s_shape s = [n]
  | KSet n => s_pred s = [] /\ s_contig s = true /\ s_shape s = [if n =? 0 then 0 else -1]
  | KLists n k => s_pred s = [] /\ s_contig s = true /\ s_shape s = [-1] /\
      forall i, (i < k)%nat -> exists t, nth_error (p_syms m) (x + S i) = Some t /\ s_cls t = KListOf x n k i
  | KBits n k => s_pred s = [] /\ s_contig s = true /\ s_shape s = [-1] /\
      forall i, (i < k)%nat -> exists t, nth_error (p_syms m) (x + S i) = Some t /\ s_cls t = KBitOf x n k i
  | KListOf main n k i => s_pred s = [main] /\ s_contig s = true /\ s_shape s = [-1] /\ (i < k)%nat /\ x = (main + S i)%nat /\
      exists t, nth_error (p_syms m) main = Some t /\ s_cls t = KLists n k
  | KBitOf main n k i => s_pred s = [main] /\ s_contig s = true /\ s_shape s = [n] /\ (i < k)%nat /\ x = (main + S i)%nat /\
      exists t, nth_error (p_syms m) main = Some t /\ s_cls t = KBits n k
  | KBasic ix => Forall (arr m) (s_pred s) /\ exists a r, s_pred s = [a] /\
      basic_new (shape_to_size (shape_at m a)) (shape_at m a) (shape_to_strides (shape_at m a)) (contig_at m a) ix = Ok r /\
      s_shape s = p_shape (fst r) /\ s_contig s = snd r
  | KAdv spec => Forall (arr m) (s_pred s) /\ exists a ix ai r, s_pred s = a :: arrays ix /\ rmap (aix (shape_at m)) ix = Ok ai /\
      adv_new true (shape_at m a) (Some 0) ai = Ok r /\ spec = ad_spec r /\ s_shape s = ad_oshape r /\ s_contig s = true
  | KPerm => Forall (arr m) (s_pred s) /\ exists a o, s_pred s = [a; o] /\ perm_new (const_at m a) (shape_at m a) (shape_at m o) true (zq (-1)) = Ok tt /\
      s_shape s = shape_at m a /\ s_contig s = true
  | KUn _ => Forall (arr m) (s_pred s) /\ exists a, s_pred s = [a] /\ s_shape s = shape_at m a /\ s_contig s = true
  | KBin _ => Forall (arr m) (s_pred s) /\ exists a b, s_pred s = [a; b] /\ BinaryModel.bin_new (shape_at m a) (shape_at m b) = Ok (s_shape s) /\ s_contig s = true
  | KNary _ => Forall (arr m) (s_pred s) /\ nary_new (map (shape_at m) (s_pred s)) = Ok (s_shape s) /\ s_contig s = true
  | KRed o => Forall (arr m) (s_pred s) /\ exists a v, s_pred s = [a] /\ red_new o None (shape_at m a) = Ok v /\ s_shape s = [] /\ s_contig s = true
  | KWhere => Forall (arr m) (s_pred s) /\ exists a b c, s_pred s = [a; b; c] /\ where_new (shape_at m a) (shape_at m b) (shape_at m c) = Ok (s_shape s) /\ s_contig s = true
  | KBinary => s_pred s = [] /\ s_contig s = true /\ forall mm, binary (s_shape s) mm = emit KBinary [] (s_shape s) true mm
  | KReshape => Forall (arr m) (s_pred s) /\ exists a, s_pred s = [a] /\ existsb (fun d => d <? 0) (s_shape s) = false /\
      reshape_new (contig_at m a) (shape_at m a) (s_shape s) = Ok (s_shape s) /\ s_contig s = true
  | KAxis k => Forall (arr m) (s_pred s) /\ exists a, s_pred s = [a] /\ pr_new (shape_at m a) [Z.of_nat k] = Ok (s_shape s) /\ s_contig s = true
  | KQuad _ _ => False
  | KSize => Forall (arr m) (s_pred s) /\ exists a, s_pred s = [a] /\ s_shape s = [] /\ s_contig s = true
  end.
Definition goal_ok (m : pym) (x : nat) : Prop := arr m x /\ shape_to_size (shape_at m x) = 1.
Definition inv (m : pym) : Prop :=
  (forall x s, nth_error (p_syms m) x = Some s -> fine m x s) /\ (forall x, p_obj m = Some x -> goal_ok m x) /\ Forall (goal_ok m) (p_cons m).

(** Symbols stay, up to their predecessors. *)
Definition ext (m m' : pym) : Prop :=
  forall x s, nth_error (p_syms m) x = Some s -> exists t, nth_error (p_syms m') x = Some t /\ s_cls t = s_cls s /\ s_shape t = s_shape s /\ s_contig t = s_contig s /\ ((forall o, s_cls s <> KNary o) -> s_pred t = s_pred s).
Lemma ext_refl m : ext m m.
Proof. intros x s H. exists s. auto. Qed.
Lemma ext_trans m m' m'' : ext m m' -> ext m' m'' -> ext m m''.
Proof. intros A B x s H. destruct (A _ _ H) as (t & T & Ec & ? & ? & P). destruct (B _ _ T) as (u & U & ? & ? & ? & Q). exists u. repeat split; try congruence. intros N. rewrite Q by (intros o; rewrite Ec; apply N). auto. Qed.
Lemma ext_arr m m' x : ext m m' -> arr m x -> arr m' x.
Proof. intros E (t & T & A). destruct (E _ _ T) as (u & U & C & _). exists u. split; auto. congruence. Qed.
Lemma ext_arrs m m' xs : ext m m' -> Forall (arr m) xs -> Forall (arr m') xs.
Proof. intros E. apply Forall_impl. intros. eapply ext_arr; eauto. Qed.
Lemma ext_shape m m' x : ext m m' -> arr m x -> shape_at m' x = shape_at m x.
Proof. intros E (t & T & A). destruct (E _ _ T) as (u & U & _ & C & _). unfold shape_at. now rewrite T, U. Qed.
Lemma ext_contig m m' x : ext m m' -> arr m x -> contig_at m' x = contig_at m x.
Proof. intros E (t & T & A). destruct (E _ _ T) as (u & U & _ & _ & C & _). unfold contig_at. now rewrite T, U. Qed.
Lemma ext_const m m' x : ext m m' -> arr m x -> const_at m' x = const_at m x.
Proof. intros E (t & T & A). destruct (E _ _ T) as (u & U & C & _). unfold const_at. now rewrite T, U, C. Qed.
Lemma ext_shapes m m' xs : ext m m' -> Forall (arr m) xs -> map (shape_at m') xs = map (shape_at m) xs.
Proof. intros E F. induction F; cbn [map]; [reflexivity|]. f_equal; auto. now apply ext_shape. Qed.
Lemma rmap_aix f g ix : (forall x, In x (arrays ix) -> f x = g x) -> rmap (aix f) ix = rmap (aix g) ix.
Proof.
  induction ix as [|i ix IH]; intros H; [reflexivity|]. cbn [rmap]. rewrite IH.
  2:{ intros x Hx. apply H. unfold arrays. cbn [flat_map]. apply in_or_app. now right. }
  destruct i as [z|a b c|x]; cbn [aix]; try reflexivity. rewrite (H x); [reflexivity|]. now left.
Qed.
Lemma fine_ext m m' x s : ext m m' -> fine m x s -> fine m' x s.
Proof.
  intros E H. unfold fine in *. destruct (s_cls s); auto.
  - destruct H as (A & B & C & D). repeat split; auto. intros i Hi. destruct (D i Hi) as (t & T & Tc). destruct (E _ _ T) as (u & U & Uc & _). exists u. split; congruence.
  - destruct H as (A & B & C & D & F & t & T & Tc). repeat split; auto. destruct (E _ _ T) as (u & U & Uc & _). exists u. split; congruence.
  - destruct H as (A & B & C & D). repeat split; auto. intros i Hi. destruct (D i Hi) as (t & T & Tc). destruct (E _ _ T) as (u & U & Uc & _). exists u. split; congruence.
  - destruct H as (A & B & C & D & F & t & T & Tc). repeat split; auto. destruct (E _ _ T) as (u & U & Uc & _). exists u. split; congruence.
  - destruct H as (F & a & r & P & H). split; [eapply ext_arrs; eauto|]. rewrite P in F. inversion F; subst. exists a, r. rewrite (ext_shape _ _ _ E), (ext_contig _ _ _ E) by assumption. auto.
  - destruct H as (F & a & ix & ai & r & P & R & H). split; [eapply ext_arrs; eauto|]. rewrite P in F. inversion F as [|? ? Fa Fx]; subst. exists a, ix, ai, r. rewrite (ext_shape _ _ _ E) by assumption.
    rewrite (rmap_aix _ (shape_at m)); [auto|]. intros y Hy. apply ext_shape; auto. rewrite Forall_forall in Fx. auto.
  - destruct H as (F & a & o & P & H). split; [eapply ext_arrs; eauto|]. rewrite P in F. inversion F as [|? ? Fa F1]; subst. inversion F1; subst. exists a, o. rewrite !(ext_shape _ _ _ E), (ext_const _ _ _ E) by assumption. auto.
  - destruct H as (F & a & P & H). split; [eapply ext_arrs; eauto|]. rewrite P in F. inversion F; subst. exists a. rewrite (ext_shape _ _ _ E) by assumption. auto.
  - destruct H as (F & a & b & P & H). split; [eapply ext_arrs; eauto|]. rewrite P in F. inversion F as [|? ? Fa F1]; subst. inversion F1; subst. exists a, b. rewrite !(ext_shape _ _ _ E) by assumption. auto.
  - destruct H as (F & H). split; [eapply ext_arrs; eauto|]. rewrite (ext_shapes _ _ _ E) by assumption. auto.
  - destruct H as (F & a & v & P & H). split; [eapply ext_arrs; eauto|]. rewrite P in F. inversion F; subst. exists a, v. rewrite (ext_shape _ _ _ E) by assumption. auto.
  - destruct H as (F & a & b & c & P & H). split; [eapply ext_arrs; eauto|]. rewrite P in F. inversion F as [|? ? Fa F1]; subst. inversion F1 as [|? ? Fb F2]; subst. inversion F2; subst.
    exists a, b, c. rewrite !(ext_shape _ _ _ E) by assumption. auto.
  - destruct H as (F & H). split; [eapply ext_arrs; eauto|]. auto.
  - destruct H as (F & a & P & H0 & H1 & H2). split; [eapply ext_arrs; eauto|]. rewrite P in F. inversion F; subst. exists a. rewrite (ext_shape _ _ _ E), (ext_contig _ _ _ E) by assumption. auto.
  - destruct H as (F & b & P & H). split; [eapply ext_arrs; eauto|]. rewrite P in F. inversion F; subst. exists b. rewrite (ext_shape _ _ _ E) by assumption. auto.
Qed.
Lemma goal_ext m m' x : ext m m' -> goal_ok m x -> goal_ok m' x.
Proof. intros E [A B]. split; [eapply ext_arr; eauto|]. rewrite (ext_shape _ _ _ E A). exact B. Qed.

(** Adding a symbol. *)
Lemma ext_app m ss o cs : ext m (Pym (p_syms m ++ ss) o cs).
Proof. intros x s H. exists s. cbn [p_syms]. rewrite nth_error_app1; [auto|]. apply nth_error_Some. congruence. Qed.
Lemma inv_app m ss : inv m -> (forall i s, nth_error ss i = Some s -> fine (Pym (p_syms m ++ ss) (p_obj m) (p_cons m)) (length (p_syms m) + i) s) ->
  inv (Pym (p_syms m ++ ss) (p_obj m) (p_cons m)).
Proof.
  intros (A & B & C) H. pose proof (ext_app m ss (p_obj m) (p_cons m)) as E. split; [|split]; cbn [p_obj p_cons].
  - intros x s Hs. destruct (Nat.lt_ge_cases x (length (p_syms m))) as [L|L].
    + cbn [p_syms] in Hs. rewrite nth_error_app1 in Hs by assumption. eapply fine_ext; eauto.
    + cbn [p_syms] in Hs. rewrite nth_error_app2 in Hs by assumption. replace x with (length (p_syms m) + (x - length (p_syms m)))%nat by lia. auto.
  - intros x Hx. eapply goal_ext; eauto.
  - eapply Forall_impl; [|exact C]. intros. eapply goal_ext; eauto.
Qed.
(** A result: the model is still in order, old symbols stay, and the result is an array. *)
Definition good (m m' : pym) (x : nat) : Prop := inv m' /\ ext m m' /\ arr m' x.
Lemma emit_good c ps sh ct m x m' : inv m -> is_array_symbol c = true ->
  (forall mm, ext m mm -> fine mm (length (p_syms m)) (Sym c ps sh ct)) -> emit c ps sh ct m = Ok (x, m') -> good m m' x.
Proof.
  intros I A H E. unfold emit in E. injection E as <- <-. split; [|split].
  - apply inv_app; auto. intros [|i] s Hs; cbn in Hs; [|now destruct i]. injection Hs as <-. rewrite Nat.add_0_r. apply H. apply ext_app.
  - apply ext_app.
  - eexists. cbn [p_syms]. rewrite nth_error_app2, Nat.sub_diag by lia. split; [reflexivity|]. exact A.
Qed.

(** Taking computations apart. *)
Lemma bind_inv {A B} (x : py A) (f : A -> py B) m r : bind x f m = Ok r -> exists a m1, x m = Ok (a, m1) /\ f a m1 = Ok r.
Proof. unfold bind. destruct (x m) as [[a m1]| |]; intros E; try discriminate. eauto. Qed.
Lemma look_inv x m s m1 : look x m = Ok (s, m1) -> m1 = m /\ nth_error (p_syms m) x = Some s.
Proof. unfold look. destruct (nth_error (p_syms m) x) as [t|]; intros E; [|discriminate]. injection E as <- <-. auto. Qed.
Lemma lift_inv {A} (r : res A) m a m1 : lift r m = Ok (a, m1) -> m1 = m /\ r = Ok a.
Proof. unfold lift. destruct r; cbn; intros E; try discriminate. injection E as <- <-. auto. Qed.
Lemma looks_inv xs : forall m ss m1, looks xs m = Ok (ss, m1) -> m1 = m /\ map s_shape ss = map (shape_at m) xs.
Proof.
  induction xs as [|x xs IH]; intros m ss m1 E; cbn [looks] in E.
  - injection E as <- <-. auto.
  - apply bind_inv in E as (s & m2 & E1 & E). apply look_inv in E1 as [-> S]. apply bind_inv in E as (t & m2 & E1 & E). apply IH in E1 as [-> M]. injection E as <- <-.
    split; auto. cbn [map]. rewrite M. unfold shape_at at 2. now rewrite S.
Qed.
Ltac inv1 E :=
  lazymatch type of E with
  | bind _ _ _ = Ok _ => let a := fresh "a" in let m1 := fresh "m" in let E1 := fresh "E" in apply bind_inv in E as (a & m1 & E1 & E); inv1 E1; inv1 E
  | look _ _ = Ok _ => let S := fresh "S" in apply look_inv in E as [-> S]; rename S into E
  | lift _ _ = Ok _ => let S := fresh "R" in apply lift_inv in E as [-> S]; rename S into E
  | raise _ = Ok _ => discriminate E
  | ret _ _ = Ok _ => injection E as <- <-
  | _ => idtac
  end.
Lemma array_symbols_inv xs : forall m u m1, array_symbols xs m = Ok (u, m1) -> m1 = m /\ Forall (arr m) xs.
Proof.
  induction xs as [|x xs IH]; intros m u m1 E; cbn [array_symbols] in E; [inv1 E; auto|].
  apply bind_inv in E as (s & m2 & E1 & E). apply look_inv in E1 as [-> S]. destruct (is_array_symbol (s_cls s)) eqn:A; [|discriminate E].
  apply IH in E as [-> F]. split; auto. constructor; auto. exists s. auto.
Qed.
Lemma array_symbols_ok xs m : Forall (arr m) xs -> array_symbols xs m = Ok (tt, m).
Proof.
  induction 1 as [|x xs (s & S & A) F IH]; [reflexivity|]. cbn [array_symbols]. unfold bind, look. rewrite S, A. exact IH.
Qed.

Lemma shape_at_some m x s : nth_error (p_syms m) x = Some s -> shape_at m x = s_shape s.
Proof. unfold shape_at. now intros ->. Qed.
Lemma contig_at_some m x s : nth_error (p_syms m) x = Some s -> contig_at m x = s_contig s.
Proof. unfold contig_at. now intros ->. Qed.
Lemma const_at_some m x s : nth_error (p_syms m) x = Some s -> const_at m x = match s_cls s with KConst _ => true | _ => false end.
Proof. unfold const_at. now intros ->. Qed.
Ltac at_simpl :=
  repeat match goal with
  | H : nth_error (p_syms ?m) ?x = Some ?s |- _ => progress rewrite <- ?(shape_at_some m x s H), <- ?(contig_at_some m x s H), <- ?(const_at_some m x s H) in *
  end.

Lemma basic_good x ix m y m' : inv m -> arr m x -> basic x ix m = Ok (y, m') -> good m m' y.
Proof.
  intros I A E. unfold basic in E. inv1 E. eapply emit_good; eauto; [reflexivity|]. intros mm X. cbn [fine s_cls s_pred s_shape s_contig].
  split; [constructor; [eapply ext_arr; eauto|constructor]|]. exists x. eexists. split; [reflexivity|]. rewrite (ext_shape _ _ _ X A), (ext_contig _ _ _ X A).
  rewrite (shape_at_some _ _ _ E0), (contig_at_some _ _ _ E0). eauto.
Qed.
Lemma advanced_good x ix m y m' : inv m -> Forall (arr m) (x :: arrays ix) -> advanced x ix m = Ok (y, m') -> good m m' y.
Proof.
  intros I F E. unfold advanced in E. apply bind_inv in E as (s & m1 & E1 & E). apply look_inv in E1 as [-> S]. apply bind_inv in E as (ss & m1 & E1 & E).
  apply looks_inv in E1 as [-> _]. inv1 E. inversion F as [|? ? Fx Fi]; subst. eapply emit_good; eauto; [reflexivity|]. intros mm X. cbn [fine s_cls s_pred s_shape s_contig].
  split; [eapply ext_arrs; eauto|]. exists x, ix. do 2 eexists. split; [reflexivity|]. rewrite (ext_shape _ _ _ X Fx), (shape_at_some _ _ _ S).
  split; [|eauto]. rewrite <- E0. apply rmap_aix. intros z Hz. apply ext_shape; auto. rewrite Forall_forall in Fi. auto.
Qed.
Lemma permutation_good x o m y m' : inv m -> arr m x -> arr m o -> permutation x o m = Ok (y, m') -> good m m' y.
Proof.
  intros I Ax Ao E. unfold permutation in E. inv1 E. destruct a1. eapply emit_good; eauto; [reflexivity|]. intros mm X. cbn [fine s_cls s_pred s_shape s_contig].
  split; [repeat constructor; eapply ext_arr; eauto|]. exists x, o. rewrite !(ext_shape _ _ _ X), (ext_const _ _ _ X) by assumption.
  rewrite (shape_at_some _ _ _ E0), (shape_at_some _ _ _ E1), (const_at_some _ _ _ E0). auto.
Qed.
Lemma unop_good o x m y m' : inv m -> arr m x -> unop o x m = Ok (y, m') -> good m m' y.
Proof.
  intros I A E. unfold unop in E. inv1 E. eapply emit_good; eauto; [reflexivity|]. intros mm X. cbn [fine s_cls s_pred s_shape s_contig].
  split; [constructor; [eapply ext_arr; eauto|constructor]|]. exists x. rewrite (ext_shape _ _ _ X A), (shape_at_some _ _ _ E0). auto.
Qed.
Lemma binop_good o x z m y m' : inv m -> arr m x -> arr m z -> binop o x z m = Ok (y, m') -> good m m' y.
Proof.
  intros I A B E. unfold binop in E. inv1 E. eapply emit_good; eauto; [reflexivity|]. intros mm X. cbn [fine s_cls s_pred s_shape s_contig].
  split; [repeat constructor; eapply ext_arr; eauto|]. exists x, z. rewrite !(ext_shape _ _ _ X), (shape_at_some _ _ _ E0), (shape_at_some _ _ _ E1) by assumption. auto.
Qed.
Lemma nary_good o xs m y m' : inv m -> Forall (arr m) xs -> nary o xs m = Ok (y, m') -> good m m' y.
Proof.
  intros I F E. unfold nary in E. apply bind_inv in E as (ss & m1 & E1 & E). apply looks_inv in E1 as [-> S]. inv1 E. rewrite S in E0. eapply emit_good; eauto; [reflexivity|].
  intros mm X. cbn [fine s_cls s_pred s_shape s_contig]. split; [eapply ext_arrs; eauto|]. rewrite (ext_shapes _ _ _ X) by assumption. auto.
Qed.
Lemma red_good o x m y m' : inv m -> arr m x -> red o x m = Ok (y, m') -> good m m' y.
Proof.
  intros I A E. unfold red in E. inv1 E. eapply emit_good; eauto; [reflexivity|]. intros mm X. cbn [fine s_cls s_pred s_shape s_contig].
  split; [constructor; [eapply ext_arr; eauto|constructor]|]. exists x. rewrite (ext_shape _ _ _ X A), (shape_at_some _ _ _ E0). eauto.
Qed.
Lemma where_good c x z m y m' : inv m -> arr m c -> arr m x -> arr m z -> where_ c x z m = Ok (y, m') -> good m m' y.
Proof.
  intros I C A B E. unfold where_ in E. inv1 E. eapply emit_good; eauto; [reflexivity|]. intros mm X. cbn [fine s_cls s_pred s_shape s_contig].
  split; [repeat constructor; eapply ext_arr; eauto|]. exists c, x, z. rewrite !(ext_shape _ _ _ X), (shape_at_some _ _ _ E0), (shape_at_some _ _ _ E1), (shape_at_some _ _ _ E2) by assumption. auto.
Qed.
Lemma reshape_good x sh m y m' : inv m -> arr m x -> reshape x sh m = Ok (y, m') -> good m m' y.
Proof.
  intros I A E. unfold reshape in E. destruct (existsb (fun d => d <? 0) sh) eqn:Ng; [discriminate E|]. inv1 E.
  assert (a0 = sh).
  { clear - E1. revert E1. unfold reshape_new. repeat match goal with |- (if ?c then _ else _) = _ -> _ => destruct c; [discriminate|] end. congruence. }
  subst a0. eapply emit_good; eauto; [reflexivity|]. intros mm X. cbn [fine s_cls s_pred s_shape s_contig].
  split; [constructor; [eapply ext_arr; eauto|constructor]|]. exists x. rewrite (ext_shape _ _ _ X A), (ext_contig _ _ _ X A), (shape_at_some _ _ _ E0), (contig_at_some _ _ _ E0). auto.
Qed.
Lemma sum_axis_good x a m y m' : inv m -> arr m x -> sum_axis x a m = Ok (y, m') -> good m m' y.
Proof.
  intros I A E. unfold sum_axis in E. apply bind_inv in E as (s & m1 & E1 & E). inv1 E1.
  destruct ((0 <=? a) && (a <? Z.of_nat (length (s_shape s)))) eqn:B; [|discriminate E]. inv1 E. eapply emit_good; eauto; [reflexivity|]. intros mm X. cbn [fine s_cls s_pred s_shape s_contig].
  split; [constructor; [eapply ext_arr; eauto|constructor]|]. exists x. rewrite (ext_shape _ _ _ X A), (shape_at_some _ _ _ E1). rewrite Z2Nat.id by lia. auto.
Qed.
