(** Building models, continued: sums in the making, groups, goals; bin packing. *)
From Coq Require Import Relations Permutation.
From Verif Require Import Base Num SliceModel ShapeModel ShapeSpec StateDataModel NodeSpec NodeShape NodeLib BinaryModel BasicModel BasicSpec ViewModel ElemModel NaryModel ReduceModel BoundsModel
  PermModel AdvModel AdvSpec AdvSpec2 GraphModel GraphSpec ProposeModel ProposeSpec PyModel PySpec GenModel GenSpec GroupModel GroupSpec PyProofs PyRules GenProofs7 RunModel RunSpec RunSpec2 RunProofs RunProofs2 RunProofs3 RunProofs4 RunProofs6 RunProofs7 FileProofs2 FileProofs3.
Set Implicit Arguments.

Section More.
Variables strict dbg : bool.
Notation Good := (Good strict dbg).
Notation made := (made strict dbg).

Lemma good_syms m B t m' : p_syms m' = p_syms m -> Good m B t -> Good m' B t /\ grow m B m' B.
Proof.
  destruct m as [l o c], m' as [l' o' c']. cbn. intros -> [G1 G2 G3 G4]. split; [split; assumption|]. split; [intros x s H; exists s; auto|reflexivity].
Qed.
Lemma t_minimize m B t x u m' : Good m B t -> minimize x m = Ok (u, m') -> Good m' B t /\ grow m B m' B /\ p_obj m' = Some x /\ p_cons m' = p_cons m.
Proof.
  intros G E. unfold minimize in E. apply bind_inv in E. destruct E as (s & m1 & E1 & E). apply look_inv in E1. destruct E1 as [-> _]. destruct (_ =? 1)%Z; [|discriminate]. injection E as <- <-. destruct (@good_syms m B t (Pym (p_syms m) (Some x) (p_cons m)) eq_refl G). auto.
Qed.
Lemma t_constrain m B t x u m' : Good m B t -> add_constraint x m = Ok (u, m') -> Good m' B t /\ grow m B m' B.
Proof.
  intros G E. unfold add_constraint in E. apply bind_inv in E. destruct E as (s & m1 & E1 & E). apply look_inv in E1. destruct E1 as [-> _]. destruct (_ =? 1)%Z; [|discriminate]. injection E as <- <-. exact (@good_syms m B t (Pym (p_syms m) (p_obj m) (p_cons m ++ [x])) eq_refl G).
Qed.

(** Sums in the making. *)
Definition making (m : pym) (B : nat -> num -> Prop) (o : nop) (x : nat) (sh : list Z) : Prop :=
  (exists ps, nth_error (p_syms m) x = Some (Sym (KNary o) ps sh true)) /\ forall q, B x q.
Lemma making_grow m B m' B' o x sh : grow m B m' B' -> making m B o x sh -> making m' B' o x sh.
Proof.
  intros [E H] ((ps & Ex) & HP). destruct (E _ _ Ex) as ([c' ps' sh' ct'] & Ex' & E1 & E2 & E3 & _). cbn in *. subst. split; [eauto|]. rewrite H; [exact HP|]. eapply nth_lt; eauto.
Qed.
Lemma t_nary m B o ys sh x m' : Good m B [] -> nary o ys m = Ok (x, m') -> Forall (fun y => exists c P, info m B [] y c sh P) ys -> nary_new (map (fun _ => sh) ys) = Ok sh -> wf_shape sh ->
  exists B', Good m' B' [x] /\ grow m B m' B' /\ x = length (p_syms m) /\ making m' B' o x sh.
Proof.
  intros G E F Hn W. unfold nary in E. apply bind_inv in E. destruct E as (ss & m1 & E1 & E). apply looks_inv in E1. destruct E1 as [-> Hss]. apply bind_inv in E. destruct E as (sh' & m1 & E1 & E). apply lift_inv in E1. destruct E1 as [-> Es].
  assert (Hsh : shapes_of m ys = map (fun _ => sh) ys). { unfold shapes_of. apply map_ext_in. intros y Hy. rewrite Forall_forall in F. destruct (F y Hy) as (c & P & H). eapply info_shape; eauto. }
  rewrite Hss in Es. fold (shapes_of m ys) in Es. rewrite Hsh, Hn in Es. injection Es as <-.
  destruct (@good_late strict dbg m B [] (KNary o) ys sh any x m' G) as (B' & G' & Hg & Hx & Hs & Hb).
  - reflexivity.
  - split; [eapply Forall_impl; [|exact F]; intros y (c & P & H); eapply info_lt; eauto|]. split; [exact W|]. cbn [s_cls s_pred s_shape]. rewrite Hsh. exact Hn.
  - split; [intros _; eapply Forall_impl; [|exact F]; intros y (c & P & H); eapply info_array; eauto|]. cbn [s_cls s_pred]. left. rewrite upd_same. intros q. exact I.
  - exact E.
  - exists B'. split; [exact G'|]. split; [exact Hg|]. split; [exact Hx|]. split; [|rewrite Hb; intros; exact I]. exists ys. rewrite Hs, Hx, nth_error_app2, Nat.sub_diag by lia. reflexivity.
Qed.
Lemma t_add m B t o x sh y c P u m' : Good m B t -> lateb t x = true -> making m B o x sh -> info m B t y c sh P -> add_node x y m = Ok (u, m') ->
  Good m' B t /\ grow m B m' B /\ making m' B o x sh.
Proof.
  intros G Hlx ((ps & Ex) & HB) Iy E. unfold add_node in E. apply bind_inv in E. destruct E as (s & m1 & E1 & E). apply look_inv in E1. destruct E1 as [-> Es]. rewrite Ex in Es. injection Es as <-.
  apply bind_inv in E. destruct E as (s & m1 & E1 & E). apply look_inv in E1. destruct E1 as [-> Es]. cbn [s_cls s_pred s_shape s_contig] in E.
  assert (Hs : s_shape s = sh) by (pose proof (info_shape Iy) as H; unfold shape_at in H; now rewrite Es in H). rewrite Hs in E. destruct (dynamic sh) eqn:D; [discriminate|]. destruct (zlist_eqb sh sh) eqn:Eq; [|discriminate]. cbn [negb] in E. injection E as <- <-.
  set (s' := Sym (KNary o) (ps ++ [y]) sh true). set (m' := Pym (lset x s' (p_syms m)) (p_obj m) (p_cons m)). assert (Hx : x < length (p_syms m)) by (eapply nth_lt; eauto).
  assert (Hat : forall z w, nth_error (p_syms m') z = Some w -> (z = x /\ w = s') \/ (z <> x /\ nth_error (p_syms m) z = Some w)).
  { intros z w Hz. cbn [m' p_syms] in Hz. destruct (Nat.eq_dec x z) as [<-|N]; [rewrite nth_lset_same in Hz by exact Hx; left; split; congruence|]. rewrite nth_lset_other in Hz by exact N. right. split; [congruence|exact Hz]. }
  assert (X : ext m m').
  { intros z w Hz. cbn [m' p_syms]. destruct (Nat.eq_dec x z) as [<-|N]; [rewrite nth_lset_same by exact Hx; rewrite Ex in Hz; injection Hz as <-; exists s'; repeat split; auto; intros K; now specialize (K o)|]. rewrite nth_lset_other by exact N. exists w. auto. }
  assert (Hlen : length (p_syms m') = length (p_syms m)) by (cbn [m' p_syms]; clear; generalize (p_syms m) x; intros l; induction l as [|a l IH]; intros [|k]; cbn; auto).
  destruct G as [G1 G2 G3 G4]. destruct (sound_at G1 _ Ex) as (L & W & S). cbn [s_cls s_pred s_shape] in *. assert (Ly : y < length (p_syms m)) by (eapply info_lt; eauto).
  split; [split|].
  - apply Forall_forall. intros w Hw. apply In_nth_error in Hw. destruct Hw as [z Hz]. destruct (Hat _ _ Hz) as [[-> ->]|[_ Hz']]; [|apply (sound_ext X); eapply sound_at; eauto]. unfold s'.
    assert (Forall (fun z => z < length (p_syms m)) (ps ++ [y])) as L' by (apply Forall_app; split; [exact L|repeat constructor; exact Ly]). split; [cbn [s_pred]; rewrite Hlen; exact L'|]. split; [exact W|]. cbn [s_cls s_pred s_shape].
    rewrite (shapes_ext X) by exact L'. unfold shapes_of. rewrite map_app. cbn [map]. rewrite (info_shape Iy). now apply nary_more.
  - intros z w Hz. destruct (Hat _ _ Hz) as [[-> ->]|[_ Hz']].
    + destruct (G2 _ _ Ex) as [H1 _]. split; [|cbn; left; exact HB]. intros _. cbn [s' s_pred s_cls] in *. apply Forall_app. split; [eapply Forall_impl; [|exact (H1 eq_refl)]; intros a; now apply array_ext|]. constructor; [|constructor]. eapply array_ext; [exact X|]. eapply info_array; eauto.
    + apply carries_ext with (m := m) (B := B); [exact X|reflexivity| |now apply G2]. destruct (sound_at G1 _ Hz') as (Lz & _). eapply Forall_impl; [|exact Lz]. cbn beta. auto.
  - intros z w Hz. destruct (Hat _ _ Hz) as [[-> ->]|[_ Hz']]; [|now apply G3]. destruct (G3 _ _ Ex) as [H1 H2]. split; [|discriminate]. cbn [s' s_pred s_cls] in *. apply Forall_app. split; [exact H1|]. constructor; [|constructor]. rewrite Hlx, (info_late Iy). discriminate.
  - rewrite Hlen. exact G4.
  - split; [split; [exact X|reflexivity]|]. split; [|exact HB]. exists (ps ++ [y]). cbn [m' p_syms]. now rewrite nth_lset_same.
Qed.

(** Groups. *)
Lemma t_parts m B t c sh main k xs m' P : Good m B t -> main < length (p_syms m) -> lateb t main = false -> wf_shape sh ->
  (forall i, main_cls (c i) = false /\ source_cls (c i) = false /\ decided_cls (c i) = true) ->
  (forall m1 i, ext m m1 -> i < k -> sound strict dbg m1 (Sym (c i) [main] sh true)) ->
  (forall m1 B1 i, i < k -> B1 (length (p_syms m1)) = P -> carries m1 B1 (length (p_syms m1)) (Sym (c i) [main] sh true)) ->
  parts c sh main k m = Ok (xs, m') ->
  exists B', Good m' B' t /\ grow m B m' B' /\ xs = seq (length (p_syms m)) k /\ forall i, i < k -> info m' B' t (length (p_syms m) + i) (c i) sh P.
Proof.
  intros G Hm Hl W Hc HS HC E. unfold parts in E.
  assert (H : forall j l m1 B1, j + length l = k -> l = seq j (length l) -> Good m1 B1 t -> grow m B m1 B1 -> length (p_syms m1) = length (p_syms m) + j -> (forall i, i < j -> info m1 B1 t (length (p_syms m) + i) (c i) sh P) ->
    forall xs m', pfor l (fun xs i => do x <- emit (c i) [main] sh true ; ret (xs ++ [x])) (seq (length (p_syms m)) j) m1 = Ok (xs, m') ->
    exists B', Good m' B' t /\ grow m B m' B' /\ xs = seq (length (p_syms m)) k /\ forall i, i < k -> info m' B' t (length (p_syms m) + i) (c i) sh P).
  { intros j l. revert j. induction l as [|i l IH]; intros j m1 B1 Hk Hls G1 Hg Hlen Hi xs' m2 E'; cbn [pfor] in E'.
    - cbn in Hk. injection E' as <- <-. rewrite Nat.add_0_r in Hk. subst j. exists B1. auto.
    - cbn [length seq] in Hls. injection Hls as -> Hls. cbn [length] in Hk. apply bind_inv in E'. destruct E' as (a & m3 & E1 & E2). apply bind_inv in E1. destruct E1 as (x & m4 & E3 & E1). injection E1 as <- <-.
      destruct (@good_emit strict dbg m1 B1 t (c j) [main] sh P x m4 G1) as (B2 & G2 & Hg2 & Hx & Hi2 & Hs & Hb); try exact E3.
      + constructor; [exact Hl|constructor].
      + intros Hq. rewrite (proj1 (proj2 (Hc j))) in Hq. discriminate.
      + apply HS; [apply Hg|lia].
      + apply HC; [lia|apply upd_same].
      + rewrite Hlen in Hx. subst x. replace (seq (length (p_syms m)) j ++ [length (p_syms m) + j]) with (seq (length (p_syms m)) (S j)) in E2 by apply seq_S.
        apply (IH (S j) m4 B2); auto; [lia|eapply grow_trans; eauto|rewrite Hs, app_length, Hlen; cbn; lia|]. intros i Hij. destruct (Nat.eq_dec i j) as [->|N]; [apply Hi2, Hc|]. eapply info_grow; [exact Hg2|]. apply Hi. lia. }
  apply (H 0 (seq 0 k) m B); auto; try lia; rewrite ?seq_length; auto. apply grow_refl.
Qed.
Lemma t_bits m B t n k main xs m' : Good m B t -> disjoint_bit_sets n k m = Ok ((main, xs), m') -> (0 <= n < 2147483648)%Z -> 1 <= k ->
  exists B', Good m' B' t /\ grow m B m' B' /\ main = length (p_syms m) /\ xs = seq (S main) k /\ forall i, i < k -> info m' B' t (S main + i) (KBitOf main n k i) [n] any.
Proof.
  intros G E Hn Hk. unfold disjoint_bit_sets in E. apply bind_inv in E. destruct E as (x & m1 & E1 & E). apply bind_inv in E. destruct E as (ys & m2 & E2 & E). injection E as <- <- <-.
  destruct (@good_emit strict dbg m B t (KBits n k) [] [-1]%Z any x m1 G) as (B1 & G1 & Hg & Hx & _ & Hs & Hb); auto.
  - split; [constructor|]. split; [split; [constructor|cbn; lia]|]. cbn. repeat split; auto; lia.
  - split; [intros _; constructor|exact I].
  - assert (Hl : lateb t x = false). { apply late_new. pose proof (g_late G) as GL. rewrite Hx. exact GL. }
    assert (Hlen : length (p_syms m1) = S x) by (rewrite Hs, app_length, Hx; cbn; lia).
    assert (Ex : nth_error (p_syms m1) x = Some (Sym (KBits n k) [] [-1]%Z true)) by (rewrite Hs, Hx, nth_error_app2, Nat.sub_diag by lia; reflexivity).
    destruct (@t_parts m1 B1 t (KBitOf x n k) [n] x k ys m2 any G1) as (B2 & G2 & Hg2 & Hys & Hi); auto.
    + lia.
    + now apply wf_shape1.
    + intros m3 i E Hi. destruct (E _ _ Ex) as (s & Es & Ec & _). split; [repeat constructor; eapply nth_lt; eauto|]. split; [now apply wf_shape1|]. cbn [s_cls s_pred s_shape]. rewrite Es. cbn [option_map]. rewrite Ec. repeat split; auto; lia.
    + intros m3 B3 i Hi Hb3. split; [discriminate|]. cbn [s_cls s_pred]. rewrite Hb3. split; exact I.
    + exists B2. split; [exact G2|]. split; [eapply grow_trans; eauto|]. split; [exact Hx|]. rewrite Hlen in Hys, Hi. auto.
Qed.

Lemma pfor_inv {A S} (I : list A -> S -> pym -> Prop) f : forall l todo s m r m', I l s m -> (forall done x s m s' m', (exists t, l ++ todo = done ++ x :: t) -> I done s m -> f s x m = Ok (s', m') -> I (done ++ [x]) s' m') -> pfor todo f s m = Ok (r, m') -> I (l ++ todo) r m'.
Proof.
  intros l todo. revert l. induction todo as [|x todo IH]; intros l s m r m' H0 Hs E; cbn [pfor] in E; [injection E as <- <-; now rewrite app_nil_r|].
  apply bind_inv in E. destruct E as (s1 & m1 & E1 & E2). replace (l ++ x :: todo) with ((l ++ [x]) ++ todo) in * by now rewrite <- app_assoc. apply (IH _ s1 m1); auto. apply (Hs l x s m); auto. exists todo. now rewrite <- app_assoc.
Qed.
Lemma good_empty : Good no_model (fun _ => any) [].
Proof. split; [constructor|intros [|x] s H; discriminate|intros [|x] s H; discriminate|constructor]. Qed.

(** A model that is sound, typed and grounded does what it stands for. *)
Theorem good_runs m B t : Good m B t -> exists g, history (build m) = Ok g /\ locked m g /\ faithful strict dbg m g.
Proof.
  intros G. destruct (good_grounded G) as [rank Hr]. destruct (build_locked_gen Hr) as (g & E & L). exists g. split; [exact E|]. split; [exact L|]. apply run_faithful; [apply G| |exact L]. eapply typed_total; [apply G|now exists rank|eapply good_typed; eauto].
Qed.
End More.
