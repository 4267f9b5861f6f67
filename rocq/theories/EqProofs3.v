(** Proofs about [equals]: transitivity, termination and cost. *)
From Verif Require Import Base Num SliceModel BinaryModel StateDataModel BoundsModel NaryModel ReduceModel NodeSpec NodeShape PyModel PySpec PyProofs EqModel EqSpec EqProofs EqProofs2.

Lemma maybe_refl m x s : nth_error (p_syms m) x = Some s -> maybe_equals true m m x x = Ok Definitely.
Proof.
  intros H. unfold maybe_equals. rewrite (node_some _ _ _ H). cbn [rbind].
  assert (B : symbol_maybe_equals true m m x x s s = Ok Definitely) by (unfold symbol_maybe_equals; now rewrite ptype_eqb_refl, Nat.eqb_refl).
  unfold constant_maybe_equals, array_maybe_equals. rewrite B. destruct (s_cls s); reflexivity.
Qed.
Lemma ty_lt m x : ty m x <> None -> x < length (p_syms m).
Proof. unfold ty. intros H. apply nth_error_Some. destruct (nth_error (p_syms m) x); [discriminate|]. now cbn in H. Qed.
Lemma F2_trans {A} (P Q R : A -> A -> Prop) : (forall a b c, P a b -> Q b c -> R a c) -> forall l1 l2 l3, Forall2 P l1 l2 -> Forall2 Q l2 l3 -> Forall2 R l1 l3.
Proof. intros H l1 l2 l3 F. revert l3. induction F as [|a b l1 l2 Pa F IH]; intros l3 G; inversion G; subst; constructor; eauto. Qed.
Lemma matched_trans m s t u : matched m m s t -> matched m m t u -> matched m m s u.
Proof.
  intros A B. constructor.
  - now rewrite (ma_type _ _ _ _ A), (ma_type _ _ _ _ B).
  - now rewrite (ma_len _ _ _ _ A), (ma_len _ _ _ _ B).
  - eapply F2_trans; [|exact (ma_types _ _ _ _ A)|exact (ma_types _ _ _ _ B)]. cbv beta. intros a b c [N E] [N' E']. split; congruence.
  - intros I. rewrite (ma_shape _ _ _ _ A I). apply (ma_shape _ _ _ _ B). now rewrite <- (array_type _ _ (ma_type _ _ _ _ A)).
Qed.
Lemma matched_preds m m' s t : matched m m' s t -> Forall (fun p => p < length (p_syms m)) (s_pred s) /\ Forall (fun p => p < length (p_syms m')) (s_pred t).
Proof.
  intros M. split; [eapply F2_left|eapply F2_right]; try exact (ma_types _ _ _ _ M); cbv beta; intros a b [N E].
  - now apply ty_lt. - apply ty_lt. congruence.
Qed.
Lemma equals_trans m l : forall x y z j k, equals true m m l x y = Ok (true, j) -> equals true m m l y z = Ok (true, k) -> exists i, equals true m m l x z = Ok (true, i).
Proof.
  induction l as [|l IH]; intros x y z j k E F; [discriminate|]. destruct (Nat.eq_dec x y) as [->|Nxy]; [eauto|]. destruct (Nat.eq_dec y z) as [->|Nyz]; [eauto|].
  cbn [equals] in E, F. destruct (maybe_equals true m m x y) as [v| |] eqn:V; cbn [rbind] in E; try discriminate. destruct (maybe_equals true m m y z) as [w| |] eqn:W; cbn [rbind] in F; try discriminate.
  destruct (verdict_inv _ _ _ _ _ _ V) as (s & t & Hs & Ht & J). destruct (verdict_inv _ _ _ _ _ _ W) as (t' & u & Ht' & Hu & K). rewrite Ht in Ht'. injection Ht' as <-.
  destruct (Nat.eq_dec x z) as [->|Nxz]; [exists 1; cbn [equals]; now rewrite (maybe_refl _ _ _ Hs)|].
  assert (M : matched m m s t) by (inversion J; subst; auto; try congruence; discriminate). assert (M' : matched m m t u) by (inversion K; subst; auto; try congruence; discriminate).
  pose proof (matched_trans _ _ _ _ M M') as Mx.
  destruct (maybe_total true m m x z s u Hs Hu (proj1 (matched_preds _ _ _ _ M)) (proj2 (matched_preds _ _ _ _ M'))) as [r R].
  destruct (verdict_inv _ _ _ _ _ _ R) as (s' & u' & Hs' & Hu' & L). rewrite Hs in Hs'. rewrite Hu in Hu'. injection Hs' as <-. injection Hu' as <-.
  cbn [equals]. rewrite R. cbn [rbind]. inversion L as [|c Cs Cu _|_ _ NC|N|_ [N|[N1 N2]]]; subst; [eauto|eauto| | | |].
  - rewrite (node_some _ _ _ Hs), (node_some _ _ _ Hu). cbn [rbind].
    assert (v = Maybe) as -> by (inversion J; subst; auto; try congruence; try discriminate; exfalso; apply NC; match goal with H : s_cls s = _ |- _ => now rewrite H end).
    assert (w = Maybe) as -> by (inversion K; subst; auto; try congruence; try discriminate; exfalso; apply NC; rewrite (ma_type _ _ _ _ M); match goal with H : s_cls t = _ |- _ => now rewrite H end).
    rewrite (node_some _ _ _ Hs), (node_some _ _ _ Ht) in E. rewrite (node_some _ _ _ Ht), (node_some _ _ _ Hu) in F. cbn [rbind] in E, F.
    destruct (all_zip _ (s_pred s) (s_pred t)) as [[b1 k1]| |] eqn:Z1; cbn [rbind fst snd] in E; try discriminate. injection E as -> <-.
    destruct (all_zip _ (s_pred t) (s_pred u)) as [[b2 k2]| |] eqn:Z2; cbn [rbind fst snd] in F; try discriminate. injection F as -> <-.
    apply all_zip_true in Z1; [|apply M]. apply all_zip_true in Z2; [|apply M'].
    destruct (all_zip_intro (equals true m m l) (s_pred s) (s_pred u)) as [i ->]; [|cbn; eauto].
    eapply F2_trans; [|exact Z1|exact Z2]. cbv beta. intros a b c [ja Ea] [jb Eb]. eapply IH; eauto.
  - destruct (N (ma_type _ _ _ _ Mx)).
  - destruct (N Mx).
  - exfalso. apply N2. assert (exists c, s_cls s = KConst c /\ s_cls t = KConst c) as (c & Cs & Ct) by (inversion J; subst; try discriminate; try congruence; eauto).
    assert (exists d, s_cls t = KConst d /\ s_cls u = KConst d) as (d & Ct' & Cu) by (inversion K; subst; try discriminate; try congruence; eauto; exfalso; match goal with H : type_of (s_cls t) <> TConst |- _ => apply H; now rewrite Ct end).
    congruence.
Qed.

(** * Termination *)
Lemma finite_ind' m (P : nat -> Prop) : (forall x s, nth_error (p_syms m) x = Some s -> Forall (finite m) (s_pred s) -> Forall P (s_pred s) -> P x) -> forall x, finite m x -> P x.
Proof.
  intros H. fix IH 2. intros x F. destruct F as [x s Hs F]. apply (H x s Hs F). clear Hs. revert F. generalize (s_pred s). fix G 2. intros l F. destruct F as [|p l A F]; constructor; [exact (IH _ A)|exact (G _ F)].
Qed.
Lemma finite_lt m x : finite m x -> x < length (p_syms m).
Proof. intros F. destruct F as [x s Hs _]. apply nth_error_Some. congruence. Qed.
Lemma equals_returns same m m' x : finite m x -> forall y, finite m' y -> exists l r, equals same m m' l x y = Ok r.
Proof.
  intros F. revert x F. apply (finite_ind' m (fun x => forall y, finite m' y -> exists l r, equals same m m' l x y = Ok r)). intros x s Hs F IH y Fy. destruct Fy as [y t Ht Fy].
  destruct (maybe_total same m m' x y s t Hs Ht) as [v V]; [eapply Forall_impl; [|exact F]; apply finite_lt|eapply Forall_impl; [|exact Fy]; apply finite_lt|].
  assert (Z : exists l r, all_zip (equals same m m' l) (s_pred s) (s_pred t) = Ok r).
  { clear -IH Fy. revert Fy. generalize (s_pred t). induction IH as [|p ps Hp IH IHps]; intros qs Fq; [exists O; cbn; eauto|]. destruct qs as [|q qs]; [exists O; cbn; eauto|]. inversion_clear Fq as [|? ? Fq1 Fq2].
    destruct (Hp q Fq1) as (l1 & r1 & E1). destruct (IHps qs Fq2) as (l2 & r2 & E2). exists (Nat.max l1 l2). cbn [all_zip]. rewrite (equals_mono _ _ _ _ _ _ _ E1) by lia. cbn [rbind].
    destruct (fst r1); [|eauto].
    assert (E3 : all_zip (equals same m m' (Nat.max l1 l2)) ps qs = Ok r2).
    { clear -E2. assert (L : l2 <= Nat.max l1 l2) by lia. revert L. generalize (Nat.max l1 l2). intros l L. revert qs r2 E2. induction ps as [|p ps IHp]; intros [|q qs] r E; cbn [all_zip] in *; try exact E.
      destruct (equals same m m' l2 p q) as [r1| |] eqn:E1; cbn [rbind] in E; try discriminate. rewrite (equals_mono _ _ _ _ _ _ _ E1) by lia. cbn [rbind]. destruct (fst r1); [|exact E].
      destruct (all_zip (equals same m m' l2) ps qs) as [r2| |] eqn:E2; cbn [rbind] in E; try discriminate. now rewrite (IHp _ _ E2). }
    rewrite E3. cbn. eauto. }
  destruct Z as (l & r & Z). exists (S l). cbn [equals]. rewrite V. cbn [rbind]. destruct v; eauto. rewrite (node_some _ _ _ Hs), (node_some _ _ _ Ht). cbn [rbind]. rewrite Z. cbn. eauto.
Qed.

(** * Cost *)
Lemma doubling_at n k : k < n -> nth_error (p_syms (doubling n)) (S k) = Some (Sym (KBin BPlus) [k; k] [1%Z] true).
Proof. intros H. cbn [doubling p_syms nth_error]. rewrite nth_error_map, (nth_error_nth' _ 0) by (rewrite seq_length; lia). now rewrite seq_nth by lia. Qed.
Lemma doubling_ty n k : k <= n -> exists s, nth_error (p_syms (doubling n)) k = Some s /\ type_of (s_cls s) = match k with O => TConst | S _ => TBin BPlus end.
Proof. intros H. destruct k as [|k]; [eexists; split; reflexivity|]. eexists. split; [apply doubling_at; lia|reflexivity]. Qed.
Lemma doubling_types n n' k : k <= n -> k <= n' -> types_match (doubling n) (doubling n') [k; k] [k; k] = Ok true.
Proof.
  intros H H'. destruct (doubling_ty n k H) as (s & Es & Ts), (doubling_ty n' k H') as (t & Et & Tt). cbn [types_match]. rewrite (node_some _ _ _ Es), (node_some _ _ _ Et). cbn [rbind]. rewrite Ts, Tt, ptype_eqb_refl. reflexivity.
Qed.
Lemma doubling_maybe n n' k : k < n -> k < n' -> maybe_equals false (doubling n) (doubling n') (S k) (S k) = Ok Maybe.
Proof.
  intros H H'. unfold maybe_equals. rewrite (node_some _ _ _ (doubling_at n k H)), (node_some _ _ _ (doubling_at n' k H')). cbn [rbind s_cls]. unfold array_maybe_equals, symbol_maybe_equals.
  cbn [s_cls s_pred s_shape]. rewrite ptype_eqb_refl. cbn [negb andb length Nat.eqb]. rewrite doubling_types by lia. reflexivity.
Qed.
Lemma equals_S same m m' l x y : equals same m m' (S l) x y =
  rbind (maybe_equals same m m' x y) (fun v =>
  match v with
  | Not => Ok (false, 1)
  | Definitely => Ok (true, 1)
  | Maybe =>
      rbind (node m x) (fun s => rbind (node m' y) (fun t =>
      rbind (all_zip (equals same m m' l) (s_pred s) (s_pred t)) (fun r => Ok (fst r, S (snd r)))))
  end).
Proof. reflexivity. Qed.
Lemma doubling_cost n n' : forall k, k <= n -> k <= n' -> equals false (doubling n) (doubling n') (S k) k k = Ok (true, 2 ^ S k - 1).
Proof.
  induction k as [|k IH]; intros H H'; [reflexivity|]. rewrite equals_S, doubling_maybe by lia. cbn [rbind]. rewrite (node_some _ _ _ (doubling_at n k H)), (node_some _ _ _ (doubling_at n' k H')). cbn [rbind s_pred].
  remember (S k) as K. cbn [all_zip]. rewrite IH by lia. cbn [rbind fst snd]. do 2 f_equal. subst K. rewrite (Nat.pow_succ_r' 2 (S k)). pose proof (Nat.pow_nonzero 2 (S k)). lia.
Qed.
Lemma doubling_limit n n' : forall k l, k <= n -> k <= n' -> l <= k -> equals false (doubling n) (doubling n') l k k = Throw.
Proof.
  induction k as [|k IH]; intros l H H' L; destruct l as [|l]; try reflexivity; [lia|]. cbn [equals]. rewrite doubling_maybe by lia. cbn [rbind]. rewrite (node_some _ _ _ (doubling_at n k H)), (node_some _ _ _ (doubling_at n' k H')). cbn [rbind s_pred all_zip].
  rewrite IH by lia. reflexivity.
Qed.
Lemma doubling_alike n n' : forall k, k <= n -> k <= n' -> alike (doubling n) (doubling n') k k.
Proof.
  induction k as [|k IH]; intros H H'; [eapply al; try reflexivity; constructor|]. eapply al; [apply doubling_at; lia|apply doubling_at; lia|reflexivity|reflexivity|]. cbn. repeat constructor; apply IH; lia.
Qed.
