(** Proofs about [equals]: symbols built alike, symmetry, transitivity, soundness. *)
From Verif Require Import Base Num SliceModel BinaryModel StateDataModel BoundsModel NaryModel ReduceModel NodeSpec NodeShape PyModel PySpec PyProofs EqModel EqSpec EqProofs.

Lemma types_match_total m m' ps : forall qs, Forall (fun p => p < length (p_syms m)) ps -> Forall (fun q => q < length (p_syms m')) qs -> exists b, types_match m m' ps qs = Ok b.
Proof.
  induction ps as [|p ps IH]; intros [|q qs] P Q; cbn [types_match]; eauto. inversion_clear P as [|? ? P1 P2]. inversion_clear Q as [|? ? Q1 Q2]. unfold node at 1 2.
  destruct (nth_error (p_syms m) p) eqn:E; [|apply nth_error_None in E; lia]. destruct (nth_error (p_syms m') q) eqn:E'; [|apply nth_error_None in E'; lia]. cbn [rbind].
  destruct (ptype_eqb _ _); eauto.
Qed.
Lemma maybe_total same m m' x y s t : nth_error (p_syms m) x = Some s -> nth_error (p_syms m') y = Some t ->
  Forall (fun p => p < length (p_syms m)) (s_pred s) -> Forall (fun q => q < length (p_syms m')) (s_pred t) -> exists v, maybe_equals same m m' x y = Ok v.
Proof.
  intros Hs Ht P Q. unfold maybe_equals. rewrite (node_some _ _ _ Hs), (node_some _ _ _ Ht). cbn [rbind].
  assert (B : exists v, symbol_maybe_equals same m m' x y s t = Ok v).
  { unfold symbol_maybe_equals. destruct (types_match_total m m' _ _ P Q) as [b ->]. cbn [rbind]. repeat destruct (negb _); eauto. destruct (_ && _); eauto. destruct (_ && _); eauto. }
  assert (A : exists v, array_maybe_equals same m m' x y s t = Ok v).
  { unfold array_maybe_equals. destruct B as [v ->]. cbn [rbind]. destruct v; eauto. repeat destruct (negb _); eauto. }
  destruct (s_cls s); try exact A; try exact B. unfold constant_maybe_equals. destruct A as [r ->]. cbn [rbind]. destruct r; eauto. destruct (s_cls t); eauto.
Qed.

(** Only its predecessors' verdicts matter to [all_zip]. *)
Lemma all_zip_true f ps : forall qs k, length ps = length qs -> all_zip f ps qs = Ok (true, k) -> Forall2 (fun p q => exists j, f p q = Ok (true, j)) ps qs.
Proof.
  induction ps as [|p ps IH]; intros [|q qs] k L E; try discriminate; [constructor|]. cbn [all_zip] in E. injection L as L. destruct (f p q) as [[b j]| |] eqn:F; cbn [rbind fst snd] in E; try discriminate.
  destruct b; [|discriminate]. destruct (all_zip f ps qs) as [[b' j']| |] eqn:Z; cbn [rbind fst snd] in E; try discriminate. injection E as -> <-. constructor; eauto.
Qed.
Lemma all_zip_intro f ps qs : Forall2 (fun p q => exists j, f p q = Ok (true, j)) ps qs -> exists k, all_zip f ps qs = Ok (true, k).
Proof. induction 1 as [|p q ps qs [j E] F [k IH]]; cbn [all_zip]; eauto. rewrite E. cbn [rbind fst snd]. rewrite IH. cbn. eauto. Qed.

Lemma alike_ind' m m' (P : nat -> nat -> Prop) :
  (forall x y s t, nth_error (p_syms m) x = Some s -> nth_error (p_syms m') y = Some t -> s_cls s = s_cls t -> s_shape s = s_shape t ->
     Forall2 (alike m m') (s_pred s) (s_pred t) -> Forall2 P (s_pred s) (s_pred t) -> P x y) -> forall x y, alike m m' x y -> P x y.
Proof.
  intros H. fix IH 3. intros x y A. destruct A as [x y s t Hs Ht C Sh F]. apply (H x y s t Hs Ht C Sh F).
  clear Hs Ht C Sh. revert F. generalize (s_pred s), (s_pred t). fix G 3. intros ps qs F. destruct F as [|p q ps qs A F]; constructor; [exact (IH _ _ A)|exact (G _ _ F)].
Qed.
Lemma alike_ty m m' x y : alike m m' x y -> ty m x <> None /\ ty m x = ty m' y.
Proof. intros A. destruct A as [x y s t Hs Ht C _ _]. unfold ty. rewrite Hs, Ht. cbn. rewrite C. split; congruence. Qed.
Lemma alike_lt m m' x y : alike m m' x y -> x < length (p_syms m) /\ y < length (p_syms m').
Proof. intros A. destruct A as [x y s t Hs Ht C _ _]. split; apply nth_error_Some; congruence. Qed.
Lemma F2_impl {A B} (P Q : A -> B -> Prop) l l' : (forall a b, P a b -> Q a b) -> Forall2 P l l' -> Forall2 Q l l'.
Proof. intros H. induction 1; constructor; auto. Qed.
Lemma F2_length {A B} (P : A -> B -> Prop) l l' : Forall2 P l l' -> length l = length l'.
Proof. induction 1; cbn; auto. Qed.
Lemma F2_left {A B} (P : A -> B -> Prop) (Q : A -> Prop) l l' : (forall a b, P a b -> Q a) -> Forall2 P l l' -> Forall Q l.
Proof. intros H. induction 1; constructor; eauto. Qed.
Lemma F2_right {A B} (P : A -> B -> Prop) (Q : B -> Prop) l l' : (forall a b, P a b -> Q b) -> Forall2 P l l' -> Forall Q l'.
Proof. intros H. induction 1; constructor; eauto. Qed.

(** Symbols built alike are never judged different ... *)
Lemma alike_verdict same m m' x y : alike m m' x y -> exists v, maybe_equals same m m' x y = Ok v /\ v <> Not.
Proof.
  intros A. pose proof A as A0. destruct A as [x y s t Hs Ht C Sh F].
  destruct (maybe_total same m m' x y s t Hs Ht) as [v E].
  { eapply F2_left; [|exact F]. intros a b H. apply alike_lt in H. tauto. } { eapply F2_right; [|exact F]. intros a b H. apply alike_lt in H. tauto. }
  exists v. split; [exact E|]. destruct (verdict_inv _ _ _ _ _ _ E) as (s' & t' & Hs' & Ht' & J). rewrite Hs in Hs'. rewrite Ht in Ht'. injection Hs' as <-. injection Ht' as <-.
  intros ->. inversion J as [| | |N|NS [N|[N1 N2]]]; subst; [now rewrite C in N| |now apply N2]. apply N. constructor.
  - now rewrite C.
  - exact (F2_length _ _ _ F).
  - eapply F2_impl; [|exact F]. apply alike_ty.
  - auto.
Qed.
(** ... and found equal if Python's recursion limit is not met. *)
Lemma alike_equals same m m' l : forall x y, alike m m' x y -> equals same m m' l x y = Throw \/ exists k, equals same m m' l x y = Ok (true, k).
Proof.
  induction l as [|l IH]; intros x y A; [now left|]. destruct (alike_verdict same _ _ _ _ A) as (v & E & N). cbn [equals]. rewrite E. cbn [rbind]. destruct v; [congruence| |eauto].
  destruct A as [x y s t Hs Ht C Sh F]. rewrite (node_some _ _ _ Hs), (node_some _ _ _ Ht). cbn [rbind].
  assert (Z : all_zip (equals same m m' l) (s_pred s) (s_pred t) = Throw \/ exists k, all_zip (equals same m m' l) (s_pred s) (s_pred t) = Ok (true, k)).
  { clear -IH F. induction F as [|p q ps qs A F IHF]; cbn [all_zip]; [eauto|]. destruct (IH p q A) as [->|[k ->]]; cbn [rbind fst snd]; [now left|]. destruct IHF as [->|[k' ->]]; cbn; eauto. }
  destruct Z as [->|[k ->]]; cbn; eauto.
Qed.
Lemma equals_mono same m m' l : forall x y r, equals same m m' l x y = Ok r -> forall l', l <= l' -> equals same m m' l' x y = Ok r.
Proof.
  induction l as [|l IH]; intros x y r E l' L; [discriminate|]. destruct l' as [|l']; [lia|]. cbn [equals] in *. destruct (maybe_equals same m m' x y) as [v| |]; cbn [rbind] in *; try discriminate. destruct v; try exact E.
  destruct (node m x) as [s| |]; cbn [rbind] in *; try discriminate. destruct (node m' y) as [t| |]; cbn [rbind] in *; try discriminate.
  assert (Z : forall ps qs r, all_zip (equals same m m' l) ps qs = Ok r -> all_zip (equals same m m' l') ps qs = Ok r).
  { clear -IH L. induction ps as [|p ps IHp]; intros [|q qs] r E; cbn [all_zip] in *; try exact E. destruct (equals same m m' l p q) as [r1| |] eqn:E1; cbn [rbind] in E; try discriminate.
    rewrite (IH _ _ _ E1 l') by lia. cbn [rbind]. destruct (fst r1); [|exact E]. destruct (all_zip (equals same m m' l) ps qs) as [r2| |] eqn:E2; cbn [rbind] in E; try discriminate. now rewrite (IHp _ _ E2). }
  destruct (all_zip (equals same m m' l) (s_pred s) (s_pred t)) as [r1| |] eqn:E1; cbn [rbind] in E; try discriminate. rewrite (Z _ _ _ E1). exact E.
Qed.
Lemma common_limit same m m' ps qs : Forall2 (fun p q => exists l k, equals same m m' l p q = Ok (true, k)) ps qs ->
  exists l k, all_zip (equals same m m' l) ps qs = Ok (true, k).
Proof.
  intros F. assert (G : exists l, Forall2 (fun p q => exists k, equals same m m' l p q = Ok (true, k)) ps qs).
  { induction F as [|p q ps qs (l & k & E) F (l' & G)]; [exists O; constructor|]. exists (Nat.max l l'). constructor; [exists k; eapply equals_mono; [exact E|lia]|].
    eapply F2_impl; [|exact G]. intros a b (j & Ej). exists j. eapply equals_mono; [exact Ej|lia]. }
  destruct G as [l G]. exists l. now apply all_zip_intro.
Qed.
Lemma alike_yes same m m' x y : alike m m' x y -> exists l k, equals same m m' l x y = Ok (true, k).
Proof.
  intros A. revert x y A. apply (alike_ind' m m' (fun x y => exists l k, equals same m m' l x y = Ok (true, k))). intros x y s t Hs Ht C Sh F G.
  destruct (common_limit _ _ _ _ _ G) as (l & k & E). exists (S l). destruct (alike_verdict same m m' x y) as (v & V & N); [econstructor; eauto|]. cbn [equals]. rewrite V. cbn [rbind].
  destruct v; [congruence| |eauto]. rewrite (node_some _ _ _ Hs), (node_some _ _ _ Ht). cbn [rbind]. rewrite E. cbn. eauto.
Qed.

(** * Symmetry *)
Lemma node_cases m x : node m x = UB \/ exists s, node m x = Ok s.
Proof. unfold node. destruct (nth_error (p_syms m) x); eauto. Qed.
Lemma symbol_sym same m m' x y s t : symbol_maybe_equals same m m' x y s t = symbol_maybe_equals same m' m y x t s.
Proof. unfold symbol_maybe_equals. now rewrite ptype_eqb_sym, (Nat.eqb_sym x y), (Nat.eqb_sym (length (s_pred s))), types_match_sym. Qed.
Lemma symbol_type same m m' x y s t : type_of (s_cls s) <> type_of (s_cls t) -> symbol_maybe_equals same m m' x y s t = Ok Not.
Proof. intros N. unfold symbol_maybe_equals. now destruct (ptype_eqb_spec (type_of (s_cls s)) (type_of (s_cls t))). Qed.
Lemma array_sym same m m' x y s t : type_of (s_cls s) = type_of (s_cls t) -> array_maybe_equals same m m' x y s t = array_maybe_equals same m' m y x t s.
Proof. intros T. unfold array_maybe_equals. rewrite symbol_sym, zlist_eqb_sym, (array_type _ _ T). reflexivity. Qed.
Lemma maybe_sym same m m' x y : maybe_equals same m m' x y = maybe_equals same m' m y x.
Proof.
  unfold maybe_equals. destruct (node_cases m x) as [->|[s ->]], (node_cases m' y) as [->|[t ->]]; cbn [rbind]; try reflexivity.
  destruct (ptype_eq_dec (type_of (s_cls s)) (type_of (s_cls t))) as [T|T].
  - pose proof (array_sym same m m' x y s t T) as A. pose proof (symbol_sym same m m' x y s t) as B.
    destruct (s_cls s) eqn:C, (s_cls t) eqn:C'; try discriminate T; try exact A; try exact B. unfold constant_maybe_equals. rewrite A, C, C'. rewrite values_eqb_sym. reflexivity.
  - pose proof (symbol_type same m m' x y s t T) as B. assert (B' : symbol_maybe_equals same m' m y x t s = Ok Not) by (now rewrite <- symbol_sym).
    destruct (s_cls s) eqn:C, (s_cls t) eqn:C'; cbn [type_of] in T; try (exfalso; apply T; reflexivity);
      unfold constant_maybe_equals, array_maybe_equals; rewrite ?B, ?B'; reflexivity.
Qed.
Lemma equals_sym same m m' l : forall x y, equals same m m' l x y = equals same m' m l y x.
Proof.
  induction l as [|l IH]; intros x y; [reflexivity|]. cbn [equals]. rewrite maybe_sym. destruct (maybe_equals same m' m y x) as [v| |]; cbn [rbind]; try reflexivity. destruct v; try reflexivity.
  destruct (node_cases m x) as [->|[s ->]], (node_cases m' y) as [->|[t ->]]; cbn [rbind]; try reflexivity.
  assert (Z : forall ps qs, all_zip (equals same m m' l) ps qs = all_zip (equals same m' m l) qs ps) by (induction ps as [|p ps IHp]; intros [|q qs]; try reflexivity; cbn [all_zip]; rewrite IH, IHp; reflexivity).
  now rewrite Z.
Qed.

(** * Soundness *)
Lemma equals_shape same m m' l x y k s : (same = true -> m' = m) -> equals same m m' l x y = Ok (true, k) -> nth_error (p_syms m) x = Some s -> is_array_symbol (s_cls s) = true -> shape_at m x = shape_at m' y.
Proof.
  intros Sm E Hs Ia. destruct l as [|l]; [discriminate|]. cbn [equals] in E. destruct (maybe_equals same m m' x y) as [v| |] eqn:V; cbn [rbind] in E; try discriminate.
  destruct (verdict_inv _ _ _ _ _ _ V) as (s' & t & Hs' & Ht & J). rewrite Hs in Hs'. injection Hs' as <-. unfold shape_at. rewrite Hs, Ht.
  inversion J as [Sa X T|w C C' M|NS M NC| |]; subst; try discriminate.
  - rewrite (Sm eq_refl) in Ht. congruence.
  - apply M. exact Ia.
  - apply M. exact Ia.
Qed.
Lemma yields_array m dv x v s : yields m dv x v -> nth_error (p_syms m) x = Some s -> is_array_symbol (s_cls s) = true.
Proof. intros Y Hs. inversion Y as [? s' Hs' D|? s' ins v' Hs' D F M]; subst; rewrite Hs in Hs'; injection Hs' as <-; destruct (s_cls s); auto; discriminate. Qed.
Lemma told_pred same m m' x y s t p q : told_apart same m m' x y -> nth_error (p_syms m) x = Some s -> nth_error (p_syms m') y = Some t -> In p (s_pred s) -> In q (s_pred t) -> told_apart same m m' p q.
Proof. intros T Hs Ht Ip Iq a b s' t' Ra Rb. apply T; econstructor; eauto. Qed.
Lemma equals_sound same m m' dv : (same = true -> m' = m) -> forall l x y v k, yields m dv x v -> told_apart same m m' x y -> equals same m m' l x y = Ok (true, k) -> yields m' dv y v.
Proof.
  intros Sm. induction l as [|l IH]; intros x y v k Y T E; [discriminate|]. cbn [equals] in E. destruct (maybe_equals same m m' x y) as [u| |] eqn:V; cbn [rbind] in E; try discriminate.
  destruct (verdict_inv _ _ _ _ _ _ V) as (s & t & Hs & Ht & J). inversion J as [Sa X Ty|w C C' M|NS M NC| |]; subst; try discriminate.
  - rewrite (Sm eq_refl). exact Y.
  - inversion Y as [? s' Hs' D|? s' ins v' Hs' D F Me]; subst; rewrite Hs in Hs'; injection Hs' as <-; [rewrite C in D; discriminate|]. rewrite C in Me. cbn in Me. destruct ins; [|discriminate]. injection Me as <-.
    inversion F as [Hp|]. pose proof (ma_len _ _ _ _ M) as L. rewrite <- Hp in L. destruct (s_pred t) as [|? ?] eqn:Pt; [|discriminate].
    eapply y_op with (s := t) (ins := []); [exact Ht|now rewrite C'|rewrite Pt; constructor|rewrite C'; reflexivity].
  - destruct (T x y s t (re_here _ _) (re_here _ _) Hs Ht (ma_type _ _ _ _ M)) as [C D]; [apply M; eapply yields_array; eauto|exact NC|].
    rewrite (node_some _ _ _ Hs), (node_some _ _ _ Ht) in E. cbn [rbind] in E. destruct (all_zip _ _ _) as [[b j]| |] eqn:Z; cbn [rbind fst snd] in E; try discriminate. injection E as -> <-.
    apply all_zip_true in Z; [|apply M].
    inversion Y as [? s' Hs' Dc|? s' ins v' Hs' Dc F Me]; subst; rewrite Hs in Hs'; injection Hs' as <-.
    + destruct (D Dc) as [-> ->]. destruct (NS eq_refl eq_refl).
    + assert (G : Forall2 (yields m' dv) (s_pred t) ins /\ shapes_of m (s_pred s) = shapes_of m' (s_pred t)).
      { assert (T' : forall p q, In p (s_pred s) -> In q (s_pred t) -> told_apart same m m' p q) by (intros; eapply told_pred; eauto). clear -T' Z F IH Sm. revert ins F T'. induction Z as [|p q ps qs [j E] Z IHZ]; intros ins F T'.
        - inversion F. split; [constructor|reflexivity].
        - inversion F as [|? v0 ? vs Yp Fp]; subst. destruct (IHZ vs Fp) as [G1 G2]; [intros; apply T'; now right|]. split.
          + constructor; [|exact G1]. eapply IH; [exact Yp|apply T'; now left|exact E].
          + unfold shapes_of in *. cbn [map]. rewrite G2. f_equal. destruct (nth_error (p_syms m) p) as [sp|] eqn:Hp.
            * eapply equals_shape; [exact Sm|exact E|exact Hp|]. eapply yields_array; eauto.
            * exfalso. inversion Yp; congruence. }
      destruct G as [G1 G2]. eapply y_op; [exact Ht|now rewrite <- C|exact G1|rewrite <- C, <- G2; exact Me].
Qed.
