(** Building models whose nodes are sound and whose elements are known, step by step. *)
From Coq Require Import Relations Permutation.
From Verif Require Import Base Num SliceModel ShapeModel ShapeSpec StateDataModel NodeSpec NodeShape NodeLib BinaryModel BasicModel BasicSpec ViewModel ElemModel NaryModel ReduceModel BoundsModel
  PermModel AdvModel AdvSpec AdvSpec2 GraphModel GraphSpec ProposeModel ProposeSpec PyModel PySpec GenModel GenSpec PyProofs PyRules RunModel RunSpec RunSpec2 RunProofs RunProofs2 RunProofs3 RunProofs4 RunProofs6 FileProofs2 FileProofs3.
Set Implicit Arguments.

Definition lateb (t : list nat) (x : nat) : bool := existsb (Nat.eqb x) t.
Section Build.
Variables strict dbg : bool.
(** [t] are symbols that come late, such as sums in the making, which may get further operands made after them: they are operands of
    each other only. *)
Record Good (m : pym) (B : nat -> num -> Prop) (t : list nat) : Prop := {
  g_sound : all_sound strict dbg m;
  g_carries : forall x s, nth_error (p_syms m) x = Some s -> carries m B x s;
  g_before : forall x s, nth_error (p_syms m) x = Some s ->
    Forall (fun y => if lateb t x then lateb t y = true -> y < x else lateb t y = false /\ y < x) (s_pred s) /\ (source_cls (s_cls s) = true -> s_pred s = []);
  g_late : Forall (fun k => k < length (p_syms m)) t }.
Definition grow (m : pym) (B : nat -> num -> Prop) (m' : pym) (B' : nat -> num -> Prop) : Prop := ext m m' /\ forall x, x < length (p_syms m) -> B' x = B x.
Definition info (m : pym) (B : nat -> num -> Prop) (t : list nat) (x : nat) (c : cls) (sh : list Z) (P : num -> Prop) : Prop :=
  (exists ps, nth_error (p_syms m) x = Some (Sym c ps sh true)) /\ main_cls c = false /\ lateb t x = false /\ only (B x) P.

Lemma good_grounded m B t : Good m B t -> grounded m.
Proof.
  intros [S _ H _]. exists (fun x => if lateb t x then length (p_syms m) + x else x). intros x s E. destruct (H _ _ E) as [H1 H2]. split; [|exact H2].
  destruct (sound_at S _ E) as (L & _). rewrite Forall_forall in *. intros y Hy. specialize (L _ Hy). specialize (H1 _ Hy). cbn beta in *. split; [exact L|]. destruct (lateb t x); [|destruct H1 as [-> H1]; exact H1]. destruct (lateb t y); [specialize (H1 eq_refl)|]; lia.
Qed.
Lemma good_typed m B t : Good m B t -> typed m.
Proof. intros G. exists B. apply G. Qed.

Lemma ext_length m m' : ext m m' -> length (p_syms m) <= length (p_syms m').
Proof.
  intros E. destruct (p_syms m) as [|s l] eqn:El; [cbn; lia|]. assert (Hl : nth_error (p_syms m) (length l) <> None) by (rewrite El; apply nth_error_Some; cbn; lia).
  destruct (nth_error (p_syms m) (length l)) as [u|] eqn:Eu; [|congruence]. destruct (E _ _ Eu) as (t & Et & _). assert (length l < length (p_syms m')) by (apply nth_error_Some; congruence). cbn. lia.
Qed.
Lemma grow_refl m B : grow m B m B.
Proof. split; [apply ext_refl|auto]. Qed.
Lemma grow_trans m B m1 B1 m2 B2 : grow m B m1 B1 -> grow m1 B1 m2 B2 -> grow m B m2 B2.
Proof. intros [E1 H1] [E2 H2]. split; [eapply ext_trans; eauto|]. intros x Hx. rewrite H2; [auto|]. pose proof (ext_length E1). lia. Qed.
Lemma nth_lt {A} (l : list A) x s : nth_error l x = Some s -> x < length l.
Proof. intros E. apply nth_error_Some. congruence. Qed.
(** An array is kept, unless it is the sum in the making. *)
Lemma info_grow m B m' B' t x c sh P : grow m B m' B' -> info m B t x c sh P -> info m' B' t x c sh P.
Proof.
  intros [E H] ((ps & Ex) & Hm & Hl & HP). destruct (E _ _ Ex) as ([c' ps' sh' ct'] & Ex' & E1 & E2 & E3 & _). cbn in *. subst. split; [eauto|]. split; [exact Hm|]. split; [exact Hl|]. rewrite H; [exact HP|]. eapply nth_lt; eauto.
Qed.
Lemma info_only m B t x c sh P Q : only P Q -> info m B t x c sh P -> info m B t x c sh Q.
Proof. intros H (A & A2 & A3 & A4). split; [exact A|]. split; [exact A2|]. split; [exact A3|]. intros q Hq. apply H, A4, Hq. Qed.

Lemma shape_ext m m' y : ext m m' -> y < length (p_syms m) -> shape_at m' y = shape_at m y.
Proof. intros E H. unfold shape_at. destruct (nth_error (p_syms m) y) as [s|] eqn:Ey; [|apply nth_error_None in Ey; lia]. destruct (E _ _ Ey) as (t & -> & _ & Es & _). exact Es. Qed.
Lemma cls_ext m m' y : ext m m' -> y < length (p_syms m) -> option_map s_cls (nth_error (p_syms m') y) = option_map s_cls (nth_error (p_syms m) y).
Proof. intros E H. destruct (nth_error (p_syms m) y) as [s|] eqn:Ey; [|apply nth_error_None in Ey; lia]. destruct (E _ _ Ey) as (t & -> & Es & _). cbn. congruence. Qed.
Lemma contig_ext m m' y : ext m m' -> y < length (p_syms m) -> RunModel.contig_at m' y = RunModel.contig_at m y.
Proof. intros E H. unfold RunModel.contig_at. destruct (nth_error (p_syms m) y) as [s|] eqn:Ey; [|apply nth_error_None in Ey; lia]. destruct (E _ _ Ey) as (t & -> & _ & _ & Es & _). exact Es. Qed.
Lemma konst_ext m m' y : ext m m' -> y < length (p_syms m) -> konst_at m' y = konst_at m y.
Proof.
  intros E H. unfold konst_at. destruct (nth_error (p_syms m) y) as [[c p s k]|] eqn:Ey; [|apply nth_error_None in Ey; lia]. destruct (E _ _ Ey) as ([c' p' s' k'] & -> & Es & _). cbn in Es. now subst.
Qed.
Lemma shapes_ext m m' ys : ext m m' -> Forall (fun y => y < length (p_syms m)) ys -> shapes_of m' ys = shapes_of m ys.
Proof. intros E F. unfold shapes_of. apply map_ext_in. intros y Hy. rewrite Forall_forall in F. apply shape_ext; auto. Qed.
Lemma array_ext m m' y : ext m m' -> array m y -> array m' y.
Proof. intros E (s & Es & Hm). destruct (E _ _ Es) as (t & Et & H & _). exists t. split; [exact Et|]. now rewrite H. Qed.
Lemma fa_ext {A} (P Q : A -> Prop) (R : A -> Prop) l : Forall R l -> Forall P l -> (forall a, R a -> P a -> Q a) -> Forall Q l.
Proof. intros HR HP H. rewrite Forall_forall in *. auto. Qed.
Lemma index_ext m m' y : ext m m' -> index_at m y -> index_at m' y.
Proof. intros E (s & Es & Hc). destruct (E _ _ Es) as (t & Et & Ec & _). exists t. split; [exact Et|]. now rewrite Ec. Qed.
Lemma view_ext m m' z ix y sh ct : ext m m' -> nth_error (p_syms m) z = Some (Sym (KBasic ix) [y] sh ct) -> nth_error (p_syms m') z = Some (Sym (KBasic ix) [y] sh ct).
Proof. intros E H. destruct (E _ _ H) as ([c p s k] & Et & E1 & E2 & E3 & E4). cbn in *. rewrite E4 in Et by discriminate. congruence. Qed.
Lemma index_lt m y : index_at m y -> y < length (p_syms m).
Proof. intros (s & E & _). eapply nth_lt; eauto. Qed.
Lemma indices_ext m m' z : ext m m' -> indices m z -> indices m' z.
Proof.
  intros E [H|(ix & y & sh & ct & H1 & H2 & H3)]; [left; eapply index_ext; eauto|right]. exists ix, y, sh, ct. split; [eapply view_ext; eauto|]. split; [eapply index_ext; eauto|]. rewrite (shape_ext E); [exact H3|]. now apply index_lt.
Qed.
Lemma short_ext m m' y : ext m m' -> short m y -> short m' y.
Proof. intros E (s & Es & Hc). destruct (E _ _ Es) as (t & Et & Ec & _). exists t. split; [exact Et|]. now rewrite Ec. Qed.
Lemma same_ext m m' z z' : ext m m' -> same_size m z z' -> same_size m' z z'.
Proof.
  intros E (w & ix & sh & ct & ix' & sh' & ct' & H1 & H2 & Ha & H3). exists w, ix, sh, ct, ix', sh', ct'. split; [eapply view_ext; eauto|]. split; [eapply view_ext; eauto|]. split; [eapply array_ext; eauto|].
  rewrite (shape_ext E); [exact H3|]. destruct Ha as (s & Es & _). eapply nth_lt; eauto.
Qed.
Lemma brief_ext m m' z : ext m m' -> brief m z -> brief m' z.
Proof.
  intros E (w & ix & sh & ct & H1 & Hw & H2). exists w, ix, sh, ct. split; [eapply view_ext; eauto|]. pose proof (ext_length E). split; [lia|]. now rewrite (shape_ext E).
Qed.
Lemma sound_ext m m' s : ext m m' -> sound strict dbg m s -> sound strict dbg m' s.
Proof.
  intros E (L & W & S). pose proof (ext_length E) as Hlen. split; [eapply Forall_impl; [|exact L]; cbn beta; intros; lia|]. split; [exact W|]. destruct s as [c ps sh ct]. cbn [s_cls s_pred s_shape] in *.
  destruct c; try exact S.
  - destruct ps as [|y [|]]; auto. inversion L; subst. rewrite (cls_ext E) by assumption. exact S.
  - destruct ps as [|y [|]]; auto. inversion L; subst. rewrite (cls_ext E) by assumption. exact S.
  - destruct ps as [|y [|]]; auto. inversion L; subst. rewrite (shape_ext E), (contig_ext E) by assumption. exact S.
  - destruct ps as [|y ys]; auto. inversion L as [|? ? Ly Lys]; subst. rewrite (shape_ext E), (konst_ext E), (shapes_ext E) by assumption. destruct S as (D & A & A1 & A2 & A3 & A4 & A5 & A6 & A7). split; [exact D|]. exists A. split; [exact A1|]. split; [exact A2|]. split; [exact A3|]. split.
    + eapply fa_ext; [exact Lys|exact A4|]. intros z Hz. now rewrite (shape_ext E).
    + split; [exact A5|]. split; [exact A6|]. eapply fa_ext; [exact Lys|exact A7|]. intros z Hz. cbn beta. rewrite (shape_ext E) by assumption. intros [Hs|Hs]; [now left|right; eapply indices_ext; eauto].
  - destruct ps as [|y [|z [|]]]; auto. inversion L as [|? ? Ly Lz']; subst. inversion Lz'; subst. rewrite !(shape_ext E), (konst_ext E), (cls_ext E) by assumption. exact S.
  - destruct ps as [|y [|]]; auto. inversion L; subst. rewrite (shape_ext E) by assumption. exact S.
  - destruct ps as [|y [|z [|]]]; auto. inversion L as [|? ? Ly Lz']; subst. inversion Lz'; subst. rewrite !(shape_ext E) by assumption. exact S.
  - rewrite (shapes_ext E) by assumption. exact S.
  - destruct ps as [|y [|]]; auto. inversion L; subst. rewrite (shape_ext E) by assumption. exact S.
  - destruct ps as [|y [|z [|w [|]]]]; auto. inversion L as [|? ? Ly Lz']; subst. inversion Lz' as [|? ? Lz Lw']; subst. inversion Lw'; subst. rewrite !(shape_ext E) by assumption. exact S.
  - destruct ps as [|y [|]]; auto. inversion L; subst. rewrite (shape_ext E), (contig_ext E) by assumption. exact S.
  - destruct ps as [|y [|]]; auto. inversion L; subst. rewrite (shape_ext E), (contig_ext E) by assumption. exact S.
  - destruct ps as [|y [|]]; auto. inversion L; subst. rewrite (shape_ext E) by assumption. exact S.
Qed.
Lemma carries_ext m B m' B' x s : ext m m' -> B' x = B x -> Forall (fun y => y < length (p_syms m) /\ B' y = B y) (s_pred s) -> carries m B x s -> carries m' B' x s.
Proof.
  intros E Hx F [H1 H2]. destruct s as [c ps sh ct]. cbn [s_cls s_pred s_shape] in *. split.
  - intros Hd. eapply Forall_impl; [|exact (H1 Hd)]. intros y. now apply array_ext.
  - assert (L : Forall (fun y => y < length (p_syms m)) ps) by (eapply Forall_impl; [|exact F]; cbn; tauto). cbn [s_cls s_pred s_shape] in *. rewrite Hx. destruct c; auto.
    + destruct ps as [|y [|]]; auto. inversion F as [|? ? [Ly Hy] _]; subst. rewrite Hy, (shape_ext E) by exact Ly. destruct H2 as [H2 [H3|H3]]; split; auto. right. eapply short_ext; eauto.
    + destruct ps as [|y ys]; auto. inversion F as [|? ? [Ly Hy] F']; subst. rewrite Hy, (shape_ext E) by assumption. destruct H2 as (A1 & A2 & A3). split; [exact A1|]. split.
      * clear - A2 F'. revert F'. induction A2 as [|d z ds zs Hd _ IH]; intros F; constructor; inversion F as [|? ? [_ Hz] F']; subst; auto. now rewrite Hz.
      * destruct A3 as [A3|[A3|A3]]; [now left|right; left|right; right]; [eapply fa_ext; [exact F'|exact A3|]; intros z [Hz _]; now rewrite (shape_ext E)|]. eapply Forall_impl; [|exact A3]. intros z. now apply same_ext.
    + destruct ps as [|y [|z [|]]]; auto. inversion F as [|? ? [Ly Hy] F']; subst. inversion F' as [|? ? [Lz Hz] _]; subst. now rewrite Hy, Hz, (shape_ext E).
    + destruct ps as [|y [|]]; auto. inversion F as [|? ? [_ Hy] _]; subst. now rewrite Hy.
    + destruct ps as [|y [|z [|]]]; auto. inversion F as [|? ? [Ly Hy] F']; subst. inversion F' as [|? ? [Lz Hz] _]; subst. now rewrite Hy, Hz, !(shape_ext E).
    + destruct H2 as [H2|[A1 A2]]; [now left|right]. split; [|exact A2]. eapply fa_ext; [exact F|exact A1|]. intros y [_ Hy]. cbn beta. now rewrite Hy.
    + destruct H2 as [H2|(A0 & A1 & A2)]; [now left|right]. split; [exact A0|]. split; [exact A1|]. eapply fa_ext; [exact F|exact A2|]. intros y [_ Hy] [Hb Ho]. rewrite Hy. split; [|exact Ho]. eapply brief_ext; eauto.
    + destruct ps as [|y [|z [|w [|]]]]; auto. inversion F as [|? ? [_ _] F']; subst. inversion F' as [|? ? [_ Hz] F'']; subst. inversion F'' as [|? ? [_ Hw] _]; subst. now rewrite Hz, Hw.
    + destruct ps as [|y [|]]; auto. inversion F as [|? ? [_ Hy] _]; subst. now rewrite Hy.
Qed.

Definition upd (B : nat -> num -> Prop) (n : nat) (P : num -> Prop) : nat -> num -> Prop := fun y => if y =? n then P else B y.
Lemma upd_same B n P : upd B n P n = P.
Proof. unfold upd. now rewrite Nat.eqb_refl. Qed.
Lemma upd_other B n P y : y < n -> upd B n P y = B y.
Proof. intros H. unfold upd. destruct (Nat.eqb_spec y n); [lia|reflexivity]. Qed.
Lemma late_new (t : list nat) n : Forall (fun k => k < n) t -> lateb t n = false.
Proof. intros H. unfold lateb. apply not_true_is_false. intros E. apply existsb_exists in E. destruct E as (k & Hk & E). apply Nat.eqb_eq in E. subst k. rewrite Forall_forall in H. specialize (H _ Hk). cbn beta in H. lia. Qed.
Lemma good_emit m B t c ps sh P x m' : Good m B t -> Forall (fun y => lateb t y = false) ps -> (source_cls c = true -> ps = []) ->
  sound strict dbg m (Sym c ps sh true) -> carries m (upd B (length (p_syms m)) P) (length (p_syms m)) (Sym c ps sh true) -> emit c ps sh true m = Ok (x, m') ->
  exists B', Good m' B' t /\ grow m B m' B' /\ x = length (p_syms m) /\ (main_cls c = false -> info m' B' t x c sh P) /\ p_syms m' = p_syms m ++ [Sym c ps sh true] /\ B' x = P.
Proof.
  intros [G1 G2 G3 G4] Hl Hs S C E. unfold emit in E. injection E as <- <-. set (n := length (p_syms m)) in *. exists (upd B n P). pose proof (ext_app m [Sym c ps sh true] (p_obj m) (p_cons m)) as X.
  assert (Hgrow : grow m B (Pym (p_syms m ++ [Sym c ps sh true]) (p_obj m) (p_cons m)) (upd B n P)) by (split; [exact X|]; intros x Hx; now apply upd_other).
  assert (Hln : lateb t n = false) by (apply late_new; exact G4).
  assert (Hat : forall x s, nth_error (p_syms m ++ [Sym c ps sh true]) x = Some s -> (nth_error (p_syms m) x = Some s /\ x < n) \/ (x = n /\ s = Sym c ps sh true)).
  { intros x s Ex. destruct (Nat.lt_ge_cases x n) as [H|H]; [left; rewrite nth_error_app1 in Ex by exact H; auto|right]. rewrite nth_error_app2 in Ex by exact H. fold n in Ex. destruct (x - n) as [|k] eqn:Ek; [|destruct k; discriminate]. injection Ex as <-. split; [lia|reflexivity]. }
  split; [split|].
  - unfold all_sound. cbn [p_syms]. apply Forall_app. split; [|constructor; [|constructor]; now apply (sound_ext X)]. eapply Forall_impl; [|exact G1]. intros s. now apply sound_ext.
  - intros x s Ex. destruct (Hat _ _ Ex) as [[Ex' Hx]|[-> ->]].
    + apply carries_ext with (m := m) (B := B); [exact X|now apply upd_other| |now apply G2]. destruct (sound_at G1 _ Ex') as (L & _). eapply Forall_impl; [|exact L]. cbn beta. intros y Hy. split; [exact Hy|now apply upd_other].
    + apply carries_ext with (m := m) (B := upd B n P); [exact X|reflexivity| |exact C]. destruct S as (L & _). eapply Forall_impl; [|exact L]. cbn beta. auto.
  - intros x s Ex. destruct (Hat _ _ Ex) as [[Ex' Hx]|[-> ->]]; [now apply G3|]. cbn [s_cls s_pred]. split; [|exact Hs]. destruct S as (L & _). cbn [s_pred] in L. eapply fa_ext; [exact L|exact Hl|]. cbn beta. intros y Hy1 Hy2. rewrite Hln. split; [exact Hy2|exact Hy1].
  - eapply Forall_impl; [|exact G4]. cbn beta. intros k Hk. cbn [p_syms]. rewrite app_length. fold n in Hk. fold n. lia.
  - split; [exact Hgrow|]. split; [reflexivity|]. split; [|split; [reflexivity|apply upd_same]]. intros Hm. split; [exists ps; cbn [p_syms]; fold n; rewrite nth_error_app2, Nat.sub_diag by lia; reflexivity|]. split; [exact Hm|]. split; [exact Hln|]. rewrite upd_same. intros q Hq. exact Hq.
Qed.
(** A symbol that comes late may have late operands. *)
Lemma late_cons t n y : lateb (n :: t) y = (y =? n) || lateb t y.
Proof. reflexivity. Qed.
Lemma good_late m B t c ps sh P x m' : Good m B t -> source_cls c = false ->
  sound strict dbg m (Sym c ps sh true) -> carries m (upd B (length (p_syms m)) P) (length (p_syms m)) (Sym c ps sh true) -> emit c ps sh true m = Ok (x, m') ->
  exists B', Good m' B' (x :: t) /\ grow m B m' B' /\ x = length (p_syms m) /\ p_syms m' = p_syms m ++ [Sym c ps sh true] /\ B' x = P.
Proof.
  intros [G1 G2 G3 G4] Hs S C E. unfold emit in E. injection E as <- <-. set (n := length (p_syms m)) in *. exists (upd B n P). pose proof (ext_app m [Sym c ps sh true] (p_obj m) (p_cons m)) as X.
  assert (Hgrow : grow m B (Pym (p_syms m ++ [Sym c ps sh true]) (p_obj m) (p_cons m)) (upd B n P)) by (split; [exact X|]; intros x Hx; now apply upd_other).
  assert (Hat : forall x s, nth_error (p_syms m ++ [Sym c ps sh true]) x = Some s -> (nth_error (p_syms m) x = Some s /\ x < n) \/ (x = n /\ s = Sym c ps sh true)).
  { intros x s Ex. destruct (Nat.lt_ge_cases x n) as [H|H]; [left; rewrite nth_error_app1 in Ex by exact H; auto|right]. rewrite nth_error_app2 in Ex by exact H. fold n in Ex. destruct (x - n) as [|k] eqn:Ek; [|destruct k; discriminate]. injection Ex as <-. split; [lia|reflexivity]. }
  split; [split|].
  - unfold all_sound. cbn [p_syms]. apply Forall_app. split; [|constructor; [|constructor]; now apply (sound_ext X)]. eapply Forall_impl; [|exact G1]. intros s. now apply sound_ext.
  - intros x s Ex. destruct (Hat _ _ Ex) as [[Ex' Hx]|[-> ->]].
    + apply carries_ext with (m := m) (B := B); [exact X|now apply upd_other| |now apply G2]. destruct (sound_at G1 _ Ex') as (L & _). eapply Forall_impl; [|exact L]. cbn beta. intros y Hy. split; [exact Hy|now apply upd_other].
    + apply carries_ext with (m := m) (B := upd B n P); [exact X|reflexivity| |exact C]. destruct S as (L & _). eapply Forall_impl; [|exact L]. cbn beta. auto.
  - intros x s Ex. destruct (Hat _ _ Ex) as [[Ex' Hx]|[-> ->]].
    + destruct (G3 _ _ Ex') as [H1 H2]. split; [|exact H2]. destruct (sound_at G1 _ Ex') as (L & _). eapply fa_ext; [exact L|exact H1|]. cbn beta. intros y Hy Hl. rewrite !late_cons. rewrite (proj2 (Nat.eqb_neq x n)) by lia. rewrite (proj2 (Nat.eqb_neq y n)) by (fold n in Hy; lia). exact Hl.
    + cbn [s_cls s_pred]. split; [|intros H; congruence]. destruct S as (L & _). cbn [s_pred] in L. eapply Forall_impl; [|exact L]. cbn beta. intros y Hy. rewrite late_cons, Nat.eqb_refl. cbn [orb]. intros _. exact Hy.
  - constructor; [cbn [p_syms]; rewrite app_length; fold n; cbn; lia|]. eapply Forall_impl; [|exact G4]. cbn beta. intros k Hk. cbn [p_syms]. rewrite app_length. fold n in Hk. fold n. lia.
  - split; [exact Hgrow|]. split; [reflexivity|]. split; [reflexivity|apply upd_same].
Qed.
Lemma info_lt m B t x c sh P : info m B t x c sh P -> x < length (p_syms m).
Proof. intros ((ps & E) & _). eapply nth_lt; eauto. Qed.
Lemma info_shape m B t x c sh P : info m B t x c sh P -> shape_at m x = sh.
Proof. intros ((ps & E) & _). unfold shape_at. now rewrite E. Qed.
Lemma info_array m B t x c sh P : info m B t x c sh P -> array m x.
Proof. intros ((ps & E) & H & _). eexists. split; [exact E|exact H]. Qed.
Lemma info_late m B t x c sh P : info m B t x c sh P -> lateb t x = false.
Proof. now intros (_ & _ & H & _). Qed.
Lemma info_wf m B t x c sh P : Good m B t -> info m B t x c sh P -> wf_shape sh.
Proof. intros G ((ps & E) & _). destruct (sound_at (g_sound G) _ E) as (_ & W & _). exact W. Qed.
Lemma info_konst m B t x c sh P : info m B t x c sh P -> konst_at m x = match c with KConst _ => true | _ => false end.
Proof. intros ((ps & E) & _). unfold konst_at. rewrite E. now destruct c. Qed.
Lemma info_contig m B t x c sh P : info m B t x c sh P -> RunModel.contig_at m x = true.
Proof. intros ((ps & E) & _). unfold RunModel.contig_at. now rewrite E. Qed.
Lemma info_only_at m B t x c sh P : info m B t x c sh P -> only (B x) P.
Proof. now intros (_ & _ & _ & H). Qed.
Lemma info_look m B t x c sh P : info m B t x c sh P -> exists ps, look x m = Ok (Sym c ps sh true, m).
Proof. intros ((ps & E) & _). exists ps. unfold look. now rewrite E. Qed.
Definition any (q : num) : Prop := True.

(** What every rule says of the model it makes. *)
Definition made (m : pym) (B : nat -> num -> Prop) (t : list nat) (x : nat) (m' : pym) (c : cls) (sh : list Z) (P : num -> Prop) : Prop :=
  exists B', Good m' B' t /\ grow m B m' B' /\ x = length (p_syms m) /\ info m' B' t x c sh P.
Ltac emitted G := lazymatch goal with E : emit ?c ?ps ?sh _ ?m = Ok (?x, ?m0) |- made _ ?B ?t _ _ _ _ ?P => destruct (@good_emit m B t c ps sh P x m0 G) as (B0 & G0 & Hg0 & Hx0 & Hi0 & _); [| | | |exact E|exists B0; split; [exact G0|]; split; [exact Hg0|]; split; [exact Hx0|]; now apply Hi0] end.
Lemma t_const m B t sh v P x m' : Good m B t -> constant sh v m = Ok (x, m') -> wf_shape sh -> fits sh v -> Forall P v -> made m B t x m' (KConst v) sh P.
Proof.
  intros G E W F HP. unfold constant in E. emitted G.
  - constructor.
  - discriminate.
  - split; [constructor|]. split; [exact W|exact F].
  - split; [constructor|]. cbn [s_cls s_pred]. now rewrite upd_same.
Qed.
Lemma t_integer m B t sh lo hi x m' : Good m B t -> integer sh lo hi m = Ok (x, m') -> wf_shape sh -> dynamic sh = false -> (0 <= prod sh)%Z -> made m B t x m' (KInteger lo hi) sh (whole lo hi).
Proof.
  intros G E W D P0. unfold integer in E. destruct (_ && _); [|discriminate]. destruct (_ || _) eqn:Eb; [discriminate|]. apply orb_false_iff in Eb. destruct Eb as [Eb E3]. apply orb_false_iff in Eb. destruct Eb as [E1 E2]. emitted G.
  - constructor.
  - reflexivity.
  - split; [constructor|]. split; [exact W|]. cbn [s_cls s_pred s_shape]. lia.
  - split; [discriminate|]. cbn [s_cls s_pred]. rewrite upd_same. intros q Hq. exact Hq.
Qed.
Lemma t_bin m B t o y z cy sy Py cz sz Pz sh x m' : Good m B t -> info m B t y cy sy Py -> info m B t z cz sz Pz -> binop o y z m = Ok (x, m') -> o <> BDiv -> o <> BMod -> BinaryModel.bin_new sy sz = Ok sh -> wf_shape sh ->
  (dynamic sy = dynamic sz \/ length sy <> length sz) -> made m B t x m' (KBin o) sh any.
Proof.
  intros G Iy Iz E H1 H2 Hn W Hc. unfold binop in E. destruct (info_look Iy) as [py Ly]. destruct (info_look Iz) as [pz Lz]. unfold bind in E. rewrite Ly in E. cbv beta iota in E. rewrite Lz in E. cbv beta iota in E. unfold lift in E. cbn [s_shape] in E. rewrite Hn in E. cbn [rbind] in E. emitted G.
  - repeat constructor; eapply info_late; eauto.
  - discriminate.
  - split; [repeat constructor; eapply info_lt; eauto|]. split; [exact W|]. cbn [s_cls s_pred s_shape]. rewrite (info_shape Iy), (info_shape Iz). auto.
  - split; [repeat constructor; eapply info_array; eauto|]. cbn [s_cls s_pred]. rewrite upd_same, (info_shape Iy), (info_shape Iz). split; [intros; exact I|exact Hc].
Qed.
Lemma t_un m B t o y cy sy Py x m' : Good m B t -> info m B t y cy sy Py -> unop o y m = Ok (x, m') -> o <> USqrt -> made m B t x m' (KUn o) sy any.
Proof.
  intros G Iy E H1. unfold unop in E. destruct (info_look Iy) as [py Ly]. unfold bind in E. rewrite Ly in E. cbv beta iota in E. cbn [s_shape] in E. emitted G.
  - repeat constructor; eapply info_late; eauto.
  - discriminate.
  - split; [repeat constructor; eapply info_lt; eauto|]. split; [eapply info_wf; eauto|]. cbn [s_cls s_pred s_shape]. rewrite (info_shape Iy). auto.
  - split; [repeat constructor; eapply info_array; eauto|]. cbn [s_cls s_pred]. rewrite upd_same. intros; exact I.
Qed.
Lemma wf_nil : wf_shape [].
Proof. repeat constructor. Qed.
Lemma t_red m B t o y cy sy Py x m' : Good m B t -> info m B t y cy sy Py -> red o y m = Ok (x, m') -> made m B t x m' (KRed o) [] any.
Proof.
  intros G Iy E. unfold red in E. destruct (info_look Iy) as [py Ly]. unfold bind in E. rewrite Ly in E. cbv beta iota in E. unfold lift in E. cbn [s_shape] in E. destruct (red_new o None sy) as [i| |] eqn:Ei; try discriminate. cbn [rbind] in E. emitted G.
  - repeat constructor; eapply info_late; eauto.
  - discriminate.
  - split; [repeat constructor; eapply info_lt; eauto|]. split; [apply wf_nil|]. cbn [s_cls s_pred s_shape]. rewrite (info_shape Iy). eauto.
  - split; [repeat constructor; eapply info_array; eauto|]. cbn [s_cls s_pred]. left. rewrite upd_same. intros; exact I.
Qed.
(** The sum of at most one element is an element, or 0. *)
Lemma t_brief m B t y cy sy (Py : num -> Prop) x m' : Good m B t -> info m B t y cy sy Py -> brief m y -> Py 0%Qc -> red RAdd y m = Ok (x, m') -> made m B t x m' (KRed RAdd) [] Py.
Proof.
  intros G Iy Hb H0 E. unfold red in E. destruct (info_look Iy) as [py Ly]. unfold bind in E. rewrite Ly in E. cbv beta iota in E. unfold lift in E. cbn [s_shape] in E. destruct (red_new RAdd None sy) as [i| |] eqn:Ei; try discriminate. cbn [rbind] in E. emitted G.
  - repeat constructor; eapply info_late; eauto.
  - discriminate.
  - split; [repeat constructor; eapply info_lt; eauto|]. split; [apply wf_nil|]. cbn [s_cls s_pred s_shape]. rewrite (info_shape Iy). eauto.
  - split; [repeat constructor; eapply info_array; eauto|]. cbn [s_cls s_pred]. right. rewrite upd_same. split; [reflexivity|]. split; [exact H0|]. constructor; [|constructor]. rewrite upd_other by (eapply info_lt; eauto). split; [exact Hb|eapply info_only_at; eauto].
Qed.
(** Views. *)
Lemma t_basic m B t y ix cy sy Py ci p x m' : Good m B t -> info m B t y cy sy Py -> basic y ix m = Ok (x, m') -> dynamic sy = false -> Forall (fun d => 0 <= d <= SMAX)%Z sy -> rmap to_sidx ix = Ok ci ->
  basic_new (shape_to_size sy) sy (shape_to_strides sy) true ci = Ok (p, true) -> wf_shape (p_shape p) -> (dbg = true -> (0 < prod (p_shape p))%Z) ->
  made m B t x m' (KBasic ci) (p_shape p) Py.
Proof.
  intros G Iy E D Hd Hr Hb W Hp. unfold basic in E. destruct (info_look Iy) as [py Ly]. unfold bind in E. rewrite Ly in E. cbv beta iota in E. rewrite Hr in E. unfold lift in E. cbn [rbind s_shape s_contig] in E. rewrite Hb in E. cbn [rbind fst snd] in E. emitted G.
  - repeat constructor; eapply info_late; eauto.
  - discriminate.
  - split; [repeat constructor; eapply info_lt; eauto|]. split; [exact W|]. cbn [s_cls s_pred s_shape]. rewrite (info_shape Iy), (info_contig Iy). split; [reflexivity|]. split; [eauto|]. left. auto.
  - split; [repeat constructor; eapply info_array; eauto|]. cbn [s_cls s_pred]. rewrite upd_same. rewrite upd_other by (eapply info_lt; eauto). rewrite (info_shape Iy). split; [eapply info_only_at; eauto|now left].
Qed.
(** Ranges of arrays that change size. *)
Lemma t_range m B t y i cy Py ci p x m' : Good m B t -> info m B t y cy [-1]%Z Py -> basic y [i] m = Ok (x, m') -> short m y -> rmap to_sidx [i] = Ok [ISlice ci] -> (sstart ci <= SMAX)%Z ->
  basic_new (-1) [-1]%Z [8]%Z true [ISlice ci] = Ok (p, true) -> wf_shape (p_shape p) -> made m B t x m' (KBasic [ISlice ci]) (p_shape p) Py.
Proof.
  intros G Iy E D Hr Hd Hb W. unfold basic in E. destruct (info_look Iy) as [py Ly]. unfold bind in E. rewrite Ly in E. cbv beta iota in E. rewrite Hr in E. unfold lift in E. cbn [rbind s_shape s_contig] in E.
  change (shape_to_size [-1]%Z) with (-1)%Z in E. change (shape_to_strides [-1]%Z) with [8]%Z in E. rewrite Hb in E. cbn [rbind fst snd] in E. emitted G.
  - repeat constructor; eapply info_late; eauto.
  - discriminate.
  - split; [repeat constructor; eapply info_lt; eauto|]. split; [exact W|]. cbn [s_cls s_pred s_shape]. rewrite (info_shape Iy), (info_contig Iy). split; [reflexivity|]. split; [eauto|]. right. eauto.
  - split; [repeat constructor; eapply info_array; eauto|]. cbn [s_cls s_pred]. rewrite upd_same. rewrite upd_other by (eapply info_lt; eauto). split; [eapply info_only_at; eauto|now right].
Qed.
(** Elements at index arrays of fixed size, or of changing size. *)
Lemma t_adv_gen m B t y ix cy sy Py ish osh x m' : Good m B t -> info m B t y cy sy Py -> advanced y ix m = Ok (x, m') -> dynamic sy = false ->
  dynamic ish = false \/ strict = false /\ Forall (indices m) (arrays ix) /\ (length (arrays ix) = 1 \/ Forall (same_size m (hd 0 (arrays ix))) (tl (arrays ix))) ->
  Forall2 (fun d z => exists c, info m B t z c ish (index_of d)) (pick true (map is_sym ix) sy) (arrays ix) ->
  Forall (fun i => is_sym i = true \/ is_full i = true) ix -> (forall dbg', exists A', adv_new dbg' sy (Some 0%Z) (index_list (map is_sym ix) (map (fun _ => ish) (arrays ix))) = Ok A' /\ ad_spec A' = map is_sym ix /\ ad_ishape A' = ish /\ ad_oshape A' = osh) ->
  wf_shape osh -> adv_supported (match cy with KConst _ => true | _ => false end) sy (map is_sym ix) ish ->
  made m B t x m' (KAdv (map is_sym ix)) osh Py.
Proof.
  intros G Iy E D Di F Hix HA W Hsup. unfold advanced in E. destruct (info_look Iy) as [py Ly]. unfold bind in E at 1. rewrite Ly in E. cbv beta iota in E.
  assert (Fi : Forall (fun z => shape_at m z = ish /\ z < length (p_syms m) /\ lateb t z = false /\ array m z) (arrays ix)).
  { clear - F. remember (pick true (map is_sym ix) sy) as l eqn:El. clear El. induction F as [|d z ds zs (c & Hc) _ IH]; constructor; auto. split; [eapply info_shape; eauto|]. split; [eapply info_lt; eauto|]. split; [eapply info_late; eauto|eapply info_array; eauto]. }
  unfold bind in E at 1. destruct (looks (arrays ix) m) as [[ss m1]| |] eqn:El; try discriminate. apply looks_inv in El. destruct El as [-> _]. cbv beta iota in E.
  assert (Ha : rmap (aix (shape_at m)) ix = Ok (index_list (map is_sym ix) (map (fun _ => ish) (arrays ix)))).
  { clear - Fi Hix. induction ix as [|i ix IH]; [reflexivity|]. inversion Hix as [|? ? Hi Hix']; subst. cbn [rmap map arrays flat_map index_list] in *. destruct i as [z|a b c|z].
    - destruct Hi; discriminate.
    - destruct Hi as [Hi|Hi]; [discriminate|]. cbn [aix is_sym rbind]. rewrite Hi. cbn [rbind]. rewrite IH by assumption. reflexivity.
    - cbn [app] in Fi. inversion Fi as [|? ? (Hz & _) Fi']; subst. cbn [aix is_sym rbind]. cbn [app map index_list]. rewrite IH by assumption. reflexivity. }
  destruct (HA true) as (A1 & A2 & A3 & A4 & A5). unfold bind, lift in E. rewrite Ha in E. cbn [rbind] in E. cbn [s_shape] in E. rewrite A2 in E. cbn [rbind] in E. rewrite A3, A5 in E. emitted G.
  - constructor; [eapply info_late; eauto|]. eapply Forall_impl; [|exact Fi]. cbn beta. tauto.
  - discriminate.
  - split; [constructor; [eapply info_lt; eauto|]; eapply Forall_impl; [|exact Fi]; cbn beta; tauto|]. split; [exact W|]. cbn [s_cls s_pred s_shape]. rewrite (info_shape Iy), (info_konst Iy). split; [exact D|]. destruct (HA dbg) as (A' & B2 & B3 & B4 & B5). exists A'.
    assert (Es : shapes_of m (arrays ix) = map (fun _ => ish) (arrays ix)) by (unfold shapes_of; apply map_ext_in; intros z Hz; rewrite Forall_forall in Fi; now apply Fi). rewrite Es. split; [exact B2|]. split; [exact B5|]. split; [clear; induction ix as [|[] ix IH]; cbn in *; auto|].
    split; [eapply Forall_impl; [|exact Fi]; cbn beta; intros z (-> & _); now rewrite B4|]. rewrite B4. split; [exact Hsup|]. destruct Di as [Di|(Hst & Hdi & _)]; [split; [auto|]; eapply Forall_impl; [|exact Fi]; cbn beta; intros z (-> & _); now left|]. split; [congruence|]. eapply Forall_impl; [|exact Hdi]. cbn beta. now right.
  - split; [intros _; constructor; [eapply info_array; eauto|]; eapply Forall_impl; [|exact Fi]; cbn beta; tauto|]. cbn [s_cls s_pred]. rewrite upd_same. rewrite upd_other by (eapply info_lt; eauto). split; [eapply info_only_at; eauto|]. rewrite (info_shape Iy). split.
    + clear - F. remember (pick true (map is_sym ix) sy) as l eqn:El. clear El. induction F as [|d z ds zs (c & Hc) _ IH]; constructor; auto. rewrite upd_other by (eapply info_lt; eauto). eapply info_only_at; eauto.
    + destruct Di as [Di|(_ & _ & [Di|Di])]; [right; left|now left|right; right; exact Di]. eapply Forall_impl; [|exact Fi]. cbn beta. intros z (-> & _). exact Di.
Qed.
Lemma t_adv m B t y ix cy sy Py ish osh x m' : Good m B t -> info m B t y cy sy Py -> advanced y ix m = Ok (x, m') -> dynamic sy = false -> dynamic ish = false ->
  Forall2 (fun d z => exists c, info m B t z c ish (index_of d)) (pick true (map is_sym ix) sy) (arrays ix) ->
  Forall (fun i => is_sym i = true \/ is_full i = true) ix -> (forall dbg', exists A', adv_new dbg' sy (Some 0%Z) (index_list (map is_sym ix) (map (fun _ => ish) (arrays ix))) = Ok A' /\ ad_spec A' = map is_sym ix /\ ad_ishape A' = ish /\ ad_oshape A' = osh) ->
  wf_shape osh -> adv_supported (match cy with KConst _ => true | _ => false end) sy (map is_sym ix) ish ->
  made m B t x m' (KAdv (map is_sym ix)) osh Py.
Proof. intros G Iy E D Di. eapply t_adv_gen; eauto. Qed.
End Build.
