(** Whole models: flow shop scheduling. *)
From Coq Require Import Relations Permutation.
From Verif Require Import Base Num SliceModel SliceSpec ShapeModel ShapeSpec StateDataModel NodeSpec NodeShape NodeLib BinaryModel BasicModel BasicSpec ViewModel ElemModel NaryModel ReduceModel BoundsModel
  PermModel AdvModel AdvSpec AdvSpec2 GraphModel GraphSpec ProposeModel ProposeSpec PyModel PySpec GenModel GenSpec PyProofs PyRules PyValues GenProofs GenProofs2 GenProofs3 GenProofs4 GenProofs7
  RunModel RunSpec RunSpec2 RunProofs RunProofs2 RunProofs3 RunProofs4 RunProofs6 RunProofs7 RunProofs8 RunProofs9 RunProofs10 FileProofs2 FileProofs3.
Set Implicit Arguments.

Ltac emitted G := lazymatch goal with E : emit ?c ?ps ?sh _ ?m = Ok (?x, ?m0) |- RunProofs7.made ?s ?d _ ?B ?t _ _ _ _ ?P => destruct (@good_emit s d m B t c ps sh P x m0 G) as (B0 & G0 & Hg0 & Hx0 & Hi0 & _); [| | | |exact E|exists B0; split; [exact G0|]; split; [exact Hg0|]; split; [exact Hx0|]; now apply Hi0] end.
Section Late.
Variables strict dbg : bool.
Notation Good := (Good strict dbg).
Notation made := (made strict dbg).
(** What is late stays so, and so does what is not. *)
Definition later (m : pym) B t m' B' t' : Prop := grow m B m' B' /\ forall x, x < length (p_syms m) -> lateb t' x = lateb t x.
Lemma later_refl m B t : later m B t m B t.
Proof. split; [apply grow_refl|auto]. Qed.
Lemma later_trans m B t m1 B1 t1 m2 B2 t2 : later m B t m1 B1 t1 -> later m1 B1 t1 m2 B2 t2 -> later m B t m2 B2 t2.
Proof. intros [H1 H2] [H3 H4]. split; [eapply grow_trans; eauto|]. intros x Hx. rewrite H4; [auto|]. destruct H1 as [H1 _]. pose proof (ext_length H1). lia. Qed.
Lemma later_grow m B m' B' t : grow m B m' B' -> later m B t m' B' t.
Proof. intros H. split; auto. Qed.
Lemma info_later m B t m' B' t' x c sh P : later m B t m' B' t' -> info m B t x c sh P -> info m' B' t' x c sh P.
Proof. intros [H1 H2] Ix. pose proof (info_lt Ix) as L. destruct (info_grow H1 Ix) as (A1 & A2 & A3 & A4). split; [exact A1|]. split; [exact A2|]. split; [|exact A4]. rewrite H2 by exact L. exact A3. Qed.
(** The end of an operation: a scalar; if it is a sum it may get further terms. *)
Definition ended (m : pym) (B : nat -> num -> Prop) t (x : nat) : Prop :=
  exists c ps, nth_error (p_syms m) x = Some (Sym c ps [] true) /\ main_cls c = false /\ (same_nop NAdd c = true -> lateb t x = true /\ forall q, B x q).
Lemma ended_later m B t m' B' t' x : later m B t m' B' t' -> ended m B t x -> ended m' B' t' x.
Proof.
  intros [[E H] H2] (c & ps & Ex & Hm & Hn). assert (L : x < length (p_syms m)) by (eapply nth_lt; eauto). destruct (E _ _ Ex) as ([c' ps' sh' ct'] & Ex' & E1 & E2 & E3 & _). cbn in *. subst. exists c, ps'. split; [exact Ex'|]. split; [exact Hm|]. rewrite H, H2 by exact L. exact Hn.
Qed.
Lemma ended_info m B t x c P : info m B t x c [] P -> same_nop NAdd c = false -> ended m B t x.
Proof. intros ((ps & E) & Hm & _) Hc. exists c, ps. split; [exact E|]. split; [exact Hm|]. congruence. Qed.
Lemma late_later m B t m' B' x : Good m B t -> grow m B m' B' -> x = length (p_syms m) -> later m B t m' B' (x :: t).
Proof. intros G H ->. split; [exact H|]. intros y Hy. rewrite late_cons. now rewrite (proj2 (Nat.eqb_neq y _)) by lia. Qed.
Lemma l_new m B t c y z x m' : Good m B t -> emit c [y; z] [] true m = Ok (x, m') -> ended m B t y -> ended m B t z -> main_cls c = false -> (c = KNary NAdd \/ c = KBin BMax) ->
  exists B' t', Good m' B' t' /\ later m B t m' B' t' /\ ended m' B' t' x.
Proof.
  intros G E (cy & py & Ey & My & _) (cz & pz & Ez & Mz & _) Hm Hc. assert (Ly := nth_lt _ _ Ey). assert (Lz := nth_lt _ _ Ez).
  assert (Sy : shape_at m y = []) by (unfold shape_at; now rewrite Ey). assert (Sz : shape_at m z = []) by (unfold shape_at; now rewrite Ez).
  assert (Ay : array m y) by (eexists; split; [exact Ey|exact My]). assert (Az : array m z) by (eexists; split; [exact Ez|exact Mz]).
  destruct (@good_late strict dbg m B t c [y; z] [] any x m' G) as (B' & G' & Hg & Hx & Hs & Hb).
  - destruct Hc as [->| ->]; reflexivity.
  - split; [repeat constructor; assumption|]. split; [apply wf_shape0|]. destruct Hc as [->| ->]; cbn [s_cls s_pred s_shape].
    + unfold shapes_of. cbn [map]. rewrite Sy, Sz. reflexivity.
    + rewrite Sy, Sz. split; [discriminate|]. split; [discriminate|reflexivity].
  - split; [intros _; repeat constructor; assumption|]. destruct Hc as [->| ->]; cbn [s_cls s_pred].
    + left. rewrite upd_same. intros q. exact I.
    + rewrite upd_same. split; [intros; exact I|]. left. now rewrite Sy, Sz.
  - exact E.
  - exists B', (x :: t). split; [exact G'|]. split; [now apply late_later|]. exists c, [y; z]. split; [rewrite Hs, Hx, nth_error_app2, Nat.sub_diag by lia; reflexivity|]. split; [exact Hm|]. intros _. split; [rewrite late_cons, Nat.eqb_refl; reflexivity|]. rewrite Hb. intros q. exact I.
Qed.
Lemma l_nary m B t y z x m' : Good m B t -> nary NAdd [y; z] m = Ok (x, m') -> ended m B t y -> ended m B t z -> exists B' t', Good m' B' t' /\ later m B t m' B' t' /\ ended m' B' t' x.
Proof.
  intros G E Hy Hz. unfold nary in E. take E. apply looks_inv in E0. destruct E0 as [-> Hs]. take E. apply lift_inv in E0. destruct E0 as [-> Es].
  pose proof Hy as (cy & py & Ey & _). pose proof Hz as (cz & pz & Ez & _). rewrite Hs in Es. cbn [map] in Es. unfold shape_at in Es. rewrite Ey, Ez in Es. injection Es as <-. eapply l_new; eauto.
Qed.
Lemma l_max m B t y z x m' : Good m B t -> several BMax NMax [y; z] m = Ok (x, m') -> ended m B t y -> ended m B t z -> exists B' t', Good m' B' t' /\ later m B t m' B' t' /\ ended m' B' t' x.
Proof.
  intros G E Hy Hz. cbn [several] in E. unfold binop in E. pose proof Hy as (cy & py & Ey & _). pose proof Hz as (cz & pz & Ez & _). take E. apply look_inv in E0. destruct E0 as [-> E0]. rewrite Ey in E0. injection E0 as <-.
  take E. apply look_inv in E0. destruct E0 as [-> E0]. rewrite Ez in E0. injection E0 as <-. cbn [s_shape] in E. unfold bind, lift in E. cbn [BinaryModel.bin_new] in E. cbn in E. eapply l_new; eauto.
Qed.
(** [x += y] *)
Lemma l_iadd m B t x y c P e m' : Good m B t -> iadd x y m = Ok (e, m') -> ended m B t x -> info m B t y c [] P -> same_nop NAdd c = false -> exists B' t', Good m' B' t' /\ later m B t m' B' t' /\ ended m' B' t' e.
Proof.
  intros G E Hx Iy Hc. unfold iadd, inplace in E. take E. apply look_inv in E0. destruct E0 as [-> El]. pose proof Hx as (cx & ps & Ex & Hm & Hn). rewrite Ex in El. injection El as <-. cbn [s_cls] in E.
  destruct (same_nop NAdd cx) eqn:Es.
  - take E. injection E as <- <-. destruct (Hn eq_refl) as [Hl HB]. assert (cx = KNary NAdd) as -> by (destruct cx; try discriminate; destruct o; try discriminate; reflexivity).
    destruct (@t_add strict dbg m B t NAdd x [] y c P x0 m0 G Hl) as (G' & Hg & (ps' & Ex') & _); [split; [eauto|exact HB]|exact Iy|exact E0|]. exists B, t. split; [exact G'|]. split; [now apply later_grow|].
    eapply ended_later; [now apply later_grow; exact Hg|exact Hx].
  - eapply l_nary; [exact G|exact E|exact Hx|]. eapply ended_info; eauto.
Qed.
Lemma l_iadd_first m B t x y c P e m' : Good m B t -> iadd x y m = Ok (e, m') -> info m B t x c [] P -> same_nop NAdd c = false -> ended m B t y -> exists B' t', Good m' B' t' /\ later m B t m' B' t' /\ ended m' B' t' e.
Proof.
  intros G E Ix Hc Hy. unfold iadd, inplace in E. take E. apply look_inv in E0. destruct E0 as [-> El]. pose proof Ix as ((ps & Ex) & _). rewrite Ex in El. injection El as <-. cbn [s_cls] in E. rewrite Hc in E.
  eapply l_nary; [exact G|exact E| |exact Hy]. eapply ended_info; eauto.
Qed.
(** [list] *)
Lemma t_list m B t n x m' : Good m B t -> list_var (Z.of_nat n) m = Ok (x, m') -> (Z.of_nat n < 2147483648)%Z -> made m B t x m' KList [Z.of_nat n] (index_of (Z.of_nat n)).
Proof.
  intros G E Hn. unfold list_var in E. repeat match type of E with (if ?b then _ else _) _ = _ => destruct b; [discriminate|] end. emitted G.
  - constructor.
  - reflexivity.
  - split; [constructor|]. split; [apply wf_shape1; lia|]. cbn [s_cls s_pred s_shape]. now exists n.
  - split; [discriminate|]. cbn [s_cls s_pred s_shape hd]. rewrite upd_same. intros q Hq. exact Hq.
Qed.
(** [x[i]] *)
Lemma t_item m B t y cy n Py i x m' : Good m B t -> info m B t y cy [n] Py -> getitem y [PInt i] m = Ok (x, m') -> not_adv cy -> (n < 2147483648)%Z -> (0 <= i < n)%Z -> made m B t x m' (KBasic [IInt i]) [] Py.
Proof.
  intros G Iy E Ha Hn Hi. destruct (@basic_int n i) as (p & Hb & Hsh); try lia.
  pose proof Iy as ((ps & Ey) & _). rewrite (@not_adv_getitem _ _ _ _ _ _ _ Ey Ha) in E. unfold array_getitem in E. unfold bind in E at 1. unfold look in E at 1. rewrite Ey in E. cbv beta iota in E. cbn [s_shape length Nat.sub repeat app forallb is_sym negb andb] in E.
  rewrite <- Hsh. refine (@t_basic strict dbg m B t y _ cy [n] Py _ p x m' G Iy E _ _ _ Hb _ _).
  - cbn. lia.
  - constructor; [unfold SMAX; lia|constructor].
  - reflexivity.
  - rewrite Hsh. apply wf_shape0.
  - rewrite Hsh. cbn. lia.
Qed.
(** [x[a]] with a scalar index array *)
Lemma t_scalar m B t y cy r Py z cz x m' : Good m B t -> info m B t y cy [r] Py -> info m B t z cz [] (index_of r) -> getitem y [PArr z] m = Ok (x, m') -> not_adv cy -> (0 <= r < 2147483648)%Z -> made m B t x m' (KAdv [true]) [] Py.
Proof.
  intros G Iy Iz E Ha Hr. pose proof Iy as ((ps & Ey) & _). rewrite (@not_adv_getitem _ _ _ _ _ _ _ Ey Ha) in E. unfold array_getitem in E. unfold bind in E at 1. unfold look in E at 1. rewrite Ey in E. cbv beta iota in E.
  cbn [s_shape length Nat.sub repeat app forallb is_sym is_full full negb andb orb] in E.
  refine (@t_adv strict dbg m B t y [PArr z] cy [r] Py [] [] x m' G Iy E _ _ _ _ _ _ _).
  - cbn. lia.
  - reflexivity.
  - constructor; [|constructor]. eauto.
  - constructor; [now left|constructor].
  - intros d'. destruct (@adv_new1_any d' r []) as (A' & X1 & X2 & X3 & X4); [lia|cbn; lia|]. exists A'. auto.
  - apply wf_shape0.
  - now left.
Qed.

Variables M J : nat.
Hypothesis HJ : 1 <= J.
Hypothesis Hs : (Z.of_nat (M * J) < 2147483648)%Z.
Variables tm order : nat.
Variable vals : list num.
Definition given (m : pym) B t : Prop := Good m B t /\ info m B t tm (KConst vals) [Z.of_nat M; Z.of_nat J] any /\ info m B t order KList [Z.of_nat J] (index_of (Z.of_nat J)).
Lemma given_later m B t m' B' t' : given m B t -> later m B t m' B' t' -> Good m' B' t' -> given m' B' t'.
Proof. intros (_ & I1 & I2) L G. split; [exact G|]. split; eapply info_later; eauto. Qed.
Lemma l_op m B t i j x m' : given m B t -> op tm order i j m = Ok (x, m') -> i < M -> j < J -> exists B' c, given m' B' t /\ later m B t m' B' t /\ info m' B' t x c [] any /\ same_nop NAdd c = false.
Proof.
  intros (G & I1 & I2) E Hi Hj. unfold op, full in E. assert (HJs : (Z.of_nat J < 2147483648)%Z) by nia.
  assert (Hl : Z.of_nat (length (chosen (Z.of_nat J) (ISlice (Slice 0 SMAX 1)))) = Z.of_nat J).
  { rewrite length_chosen, hi_max by (unfold SMAX; lia). unfold lo, py_norm. cbn [Z.ltb Z.compare]. lia. }
  take E. destruct (@t_row strict dbg _ _ _ _ _ _ _ _ (Z.of_nat i) None None 0 SMAX _ _ G I1 E0) as (B1 & G1 & H1 & _ & A1); [exact I|lia|nia|lia|reflexivity|lia|]. clear E0. rewrite Hl in A1. pose proof (info_grow H1 I1) as I1'. pose proof (info_grow H1 I2) as I2'.
  take E. destruct (t_item G1 I2' E0) as (B2 & G2 & H2 & _ & A2); [exact I|lia|lia|]. clear E0. apply (info_grow H2) in A1, I1', I2'.
  destruct (t_scalar G2 A1 A2 E) as (B3 & G3 & H3 & _ & A3); [exact I|lia|]. apply (info_grow H3) in I1', I2'. exists B3, (KAdv [true]). split; [split; [exact G3|split; assumption]|]. split; [|split; [exact A3|reflexivity]].
  apply later_grow. eapply grow_trans; [exact H1|]. eapply grow_trans; eassumption.
Qed.
Definition so_far (m : pym) B t (ends : list nat) (m' : pym) : Prop := exists B' t', given m' B' t' /\ later m B t m' B' t' /\ Forall (ended m' B' t') ends.
Lemma l_first m B t xs m' : given m B t -> 1 <= M -> first_machine tm order J m = Ok (xs, m') -> so_far m B t xs m'.
Proof.
  intros G HM E. unfold first_machine in E. pose (Inv := fun (_ : list nat) ends m' => so_far m B t ends m').
  change (Inv ([] ++ seq 0 J) xs m'). refine (@pfor_inv _ _ Inv _ [] (seq 0 J) [] m xs m' _ _ E).
  - exists B, t. split; [exact G|]. split; [apply later_refl|constructor].
  - intros done j ends ma ends' mb (rest & Hj) (Ba & ta & Ga & La & Fa) Eb. assert (Hjn : j < J) by (assert (Hin : In j (seq 0 J)) by (cbn [app] in Hj; rewrite Hj; apply in_or_app; right; now left); apply in_seq in Hin; lia).
    destruct ends as [|last ends]; take Eb; destruct (l_op Ga E0 HM Hjn) as (B1 & c & G1 & L1 & I1 & Hc).
    + injection Eb as <- <-. exists B1, ta. split; [exact G1|]. split; [eapply later_trans; eauto|]. constructor; [|constructor]. eapply ended_info; eauto.
    + take Eb. injection Eb as <- <-. inversion Fa as [|? ? F1 F2]; subst. destruct (l_iadd_first (proj1 G1) E1 I1 Hc (ended_later L1 F1)) as (B2 & t2 & G2 & L2 & A2).
      exists B2, t2. split; [eapply given_later; eauto|]. split; [eapply later_trans; [exact La|]; eapply later_trans; eauto|]. constructor; [exact A2|].
      eapply Forall_impl; [|exact (Forall_cons _ F1 F2)]. intros z Hz. eapply ended_later; [exact L2|]. eapply ended_later; eauto.
Qed.
Lemma l_next m B t i prev xs m' : given m B t -> i < M -> Forall (ended m B t) prev -> length prev <= J -> next_machine tm order i prev m = Ok (xs, m') -> so_far m B t xs m'.
Proof.
  intros G Hi Hp Hl E. unfold next_machine in E. set (l := combine (seq 0 (length prev)) prev) in *. pose (Inv := fun (_ : list (nat * nat)) ends m' => so_far m B t ends m').
  change (Inv ([] ++ l) xs m'). refine (@pfor_inv _ _ Inv _ [] l [] m xs m' _ _ E).
  - exists B, t. split; [exact G|]. split; [apply later_refl|constructor].
  - intros done [j p] ends ma ends' mb (rest & Hj) (Ba & ta & Ga & La & Fa) Eb. assert (Hin : In (j, p) l) by (cbn [app] in Hj; rewrite Hj; apply in_or_app; right; now left). unfold l in Hin.
    assert (Hjn : j < J) by (apply in_combine_l, in_seq in Hin; lia). assert (Ep : ended ma Ba ta p) by (apply in_combine_r in Hin; rewrite Forall_forall in Hp; eapply ended_later; eauto).
    destruct ends as [|last ends]; take Eb.
    + destruct (l_op Ga E0 Hi Hjn) as (B1 & c & G1 & L1 & I1 & Hc). take Eb. injection Eb as <- <-. destruct (l_iadd (proj1 G1) E1 (ended_later L1 Ep) I1 Hc) as (B2 & t2 & G2 & L2 & A2).
      exists B2, t2. split; [eapply given_later; eauto|]. split; [eapply later_trans; [exact La|]; eapply later_trans; eauto|]. repeat constructor; exact A2.
    + inversion Fa as [|? ? F1 F2]; subst. destruct (l_max (proj1 Ga) E0 Ep F1) as (B0 & t0 & G0 & L0 & A0). pose proof (given_later Ga L0 G0) as Gv0.
      take Eb. destruct (l_op Gv0 E1 Hi Hjn) as (B1 & c & G1 & L1 & I1 & Hc). take Eb. injection Eb as <- <-. destruct (l_iadd (proj1 G1) E2 (ended_later L1 A0) I1 Hc) as (B2 & t2 & G2 & L2 & A2).
      pose proof (later_trans L0 (later_trans L1 L2)) as L3. exists B2, t2. split; [eapply given_later; [exact G1|exact L2|exact G2]|]. split; [eapply later_trans; eauto|]. constructor; [exact A2|].
      eapply Forall_impl; [|exact (Forall_cons _ F1 F2)]. intros z Hz. eapply ended_later; eauto.
Qed.
End Late.

Lemma next_length tm order i prev m xs m' : next_machine tm order i prev m = Ok (xs, m') -> length xs = length prev.
Proof.
  unfold next_machine. intros E. set (l := combine (seq 0 (length prev)) prev) in *. assert (Hl : length l = length prev) by (unfold l; rewrite combine_length, seq_length; lia). rewrite <- Hl.
  pose (Inv := fun (done : list (nat * nat)) (ends : list nat) (_ : pym) => length ends = length done). change (Inv ([] ++ l) xs m'). refine (@pfor_inv _ _ Inv _ [] l [] m xs m' eq_refl _ E).
  intros done [j p] ends ma ends' mb _ HI Eb. unfold Inv in *. rewrite app_length. cbn [length]. destruct ends as [|last ends]; repeat take Eb; injection Eb as <- _; cbn [length] in *; lia.
Qed.
Lemma first_length tm order J m xs m' : first_machine tm order J m = Ok (xs, m') -> length xs = J.
Proof.
  unfold first_machine. intros E. replace J with (length (seq 0 J)) by apply seq_length. pose (Inv := fun (done : list nat) (ends : list nat) (_ : pym) => length ends = length done). change (Inv ([] ++ seq 0 J) xs m'). refine (@pfor_inv _ _ Inv _ [] (seq 0 J) [] m xs m' eq_refl _ E).
  intros done j ends ma ends' mb _ HI Eb. unfold Inv in *. rewrite app_length. cbn [length]. destruct ends as [|last ends]; repeat take Eb; injection Eb as <- _; cbn [length] in *; lia.
Qed.

Section Flow.
Variables strict dbg : bool.
Variables M J : nat.
Variable P : list (list num).
Hypothesis HM : 1 <= M.
Hypothesis HJ : 1 <= J.
Hypothesis Hs : (Z.of_nat (M * J) < 2147483648)%Z.
Hypothesis HP : matrix M J P.
Hypothesis HP0 : Forall nonnegative P.

Lemma flow_good r m : flow_shop_scheduling P no_model = Ok (r, m) -> exists B t, Good strict dbg m B t.
Proof.
  intros E. unfold flow_shop_scheduling in E. take E. rewrite (require_matrix_ok _ HM HP HP0) in E0. injection E0 as <- <-. take E. apply unless_inv in E0. destruct E0 as [-> _]. rewrite !Nat2Z.id in E.
  pose proof (good_empty strict dbg) as G. assert (HJs : (Z.of_nat J < 2147483648)%Z) by nia.
  take E. destruct (t_const (P := any) G E0) as (B1 & G1 & H1 & X1 & I1); [apply wf_shape2; nia|now apply fits_concat|apply Forall_forall; intros; exact I|]. clear E0.
  take E. destruct (t_list _ G1 E0 HJs) as (B2 & G2 & H2 & X2 & I2). clear E0. apply (info_grow H2) in I1.
  take E. pose proof (first_length _ _ _ _ E0) as Hl0. destruct (@l_first strict dbg M J HJ Hs _ _ _ _ _ _ _ _ (conj G2 (conj I1 I2)) HM E0) as (B3 & t3 & G3 & L3 & F3). clear E0.
  take E. pose (Inv := fun (_ : list nat) ends m' => length ends = J /\ @so_far strict dbg M J x0 x1 (concat P) m2 B3 t3 ends m').
  assert (HI : Inv ([] ++ seq 1 (M - 1)) x3 m3).
  { refine (@pfor_inv _ _ Inv _ [] (seq 1 (M - 1)) x2 m2 x3 m3 _ _ E0).
    - split; [exact Hl0|]. exists B3, t3. split; [exact G3|]. split; [apply later_refl|exact F3].
    - intros done i ends ma ends' mb (rest & Hi) (Hla & Ba & ta & Ga & La & Fa) Eb. assert (Hin : i < M) by (assert (Hin : In i (seq 1 (M - 1))) by (cbn [app] in Hi; rewrite Hi; apply in_or_app; right; now left); apply in_seq in Hin; lia).
      pose proof (next_length _ _ _ _ _ Eb) as Hl1. rewrite rev_length in Hl1. split; [lia|]. assert (Hlr : length (rev ends) <= J) by (rewrite rev_length; lia).
      destruct (@l_next strict dbg M J HJ Hs _ _ _ _ _ _ _ _ _ _ Ga Hin (Forall_rev Fa) Hlr Eb) as (Bb & tb & Gb & Lb & Fb). exists Bb, tb. split; [exact Gb|]. split; [eapply later_trans; eauto|exact Fb]. }
  destruct HI as (_ & B4 & t4 & (G4 & _) & _). take E. assert (m4 = m3) as -> by (destruct (hd_error x3); [now injection E1 as _ <-|discriminate]). take E. injection E as _ <-. destruct (t_minimize _ G4 E2) as (G5 & _). eauto.
Qed.
Theorem flow_shop_run : exists m g obj, flow_shop_scheduling P no_model = Ok (1, m) /\ history (build m) = Ok g /\ p_obj m = Some obj /\ p_cons m = [] /\ faithful strict dbg m g /\
    forall st, running strict dbg m g st -> exists p, Permutation p (seq 0 J) /\ pin_of (nodes strict dbg m) g st 1 = Some (still (numbers p)) /\
      pin_of (nodes strict dbg m) g st obj = Some (still [held_makespan P p]).
Proof.
  destruct (flow_shop_model HP HM HJ Hs HP0) as (m & E & _ & (ps & ct & Ed) & Hc & H). destruct (flow_good E) as (B & t & G). destruct (good_runs G) as (g & Eg & L & Fa).
  assert (Hobj : exists obj, p_obj m = Some obj) by (destruct (H (fun _ => numbers (seq 0 J)) (seq 0 J) (Permutation_refl _) eq_refl) as (x & Hx & _); eauto).
  destruct Hobj as [obj Ho]. exists m, g, obj. split; [exact E|]. split; [exact Eg|]. split; [exact Ho|]. split; [exact Hc|]. split; [exact Fa|]. intros st Hr. destruct Fa as (_ & Fa & _). destruct (Fa st Hr) as (dv & Hdom & Sh).
  destruct (Hdom _ _ Ed) as [Hal _]. cbn [s_cls s_shape allowed decided_cls hd] in Hal. rewrite Nat2Z.id in Hal. destruct (Hal eq_refl) as (p & Hp & Ep). exists p. split; [exact Hp|].
  destruct (H dv p Hp Ep) as (x & Hx & Hy). split; [apply (shown_value Sh); rewrite <- Ep; apply y_dec with (1 := Ed); reflexivity|]. apply (shown_value Sh). congruence.
Qed.
End Flow.
