(** Proofs about [equals]. *)
From Verif Require Import Base Num SliceModel BinaryModel StateDataModel BoundsModel NaryModel ReduceModel NodeSpec NodeShape PyModel PySpec PyProofs EqModel EqSpec.

Lemma ptype_eqb_spec a b : reflect (a = b) (ptype_eqb a b).
Proof. unfold ptype_eqb. destruct (ptype_eq_dec a b); now constructor. Qed.
Lemma ptype_eqb_sym a b : ptype_eqb a b = ptype_eqb b a.
Proof. destruct (ptype_eqb_spec a b), (ptype_eqb_spec b a); congruence. Qed.
Lemma ptype_eqb_refl a : ptype_eqb a a = true.
Proof. now destruct (ptype_eqb_spec a a). Qed.
Lemma zlist_eqb_sym a b : zlist_eqb a b = zlist_eqb b a.
Proof. destruct (zlist_eqb_spec a b), (zlist_eqb_spec b a); congruence. Qed.
Lemma values_eqb_spec v : forall w, reflect (v = w) (values_eqb v w).
Proof.
  induction v as [|a v IH]; intros [|b w]; cbn; try (constructor; congruence).
  destruct (qeqb_spec a b) as [->|N]; [|constructor; congruence]. cbn. destruct (IH w) as [->|N]; constructor; congruence.
Qed.
Lemma qeqb_sym a b : qeqb a b = qeqb b a.
Proof. destruct (qeqb_spec a b), (qeqb_spec b a); congruence. Qed.
Lemma values_eqb_sym v : forall w, values_eqb v w = values_eqb w v.
Proof. induction v as [|a v IH]; intros [|b w]; cbn; auto. now rewrite IH, qeqb_sym. Qed.

Lemma node_ok m x s : node m x = Ok s <-> nth_error (p_syms m) x = Some s.
Proof. unfold node. destruct (nth_error (p_syms m) x); split; congruence. Qed.
Lemma node_some m x s : nth_error (p_syms m) x = Some s -> node m x = Ok s.
Proof. apply node_ok. Qed.

(** The type of a node. *)
Definition ty (m : pym) (x : nat) : option ptype := option_map (fun s => type_of (s_cls s)) (nth_error (p_syms m) x).
Lemma types_match_true m m' ps : forall qs, length ps = length qs ->
  (types_match m m' ps qs = Ok true <-> Forall2 (fun p q => ty m p <> None /\ ty m p = ty m' q) ps qs).
Proof.
  induction ps as [|p ps IH]; intros [|q qs] L; try discriminate; cbn [types_match]; [split; constructor|].
  injection L as L. specialize (IH qs L). unfold ty, node in *. split.
  - intros E. destruct (nth_error (p_syms m) p) as [s|] eqn:Hs; [|discriminate]. destruct (nth_error (p_syms m') q) as [t|] eqn:Ht; [|discriminate]. cbn [rbind] in E.
    destruct (ptype_eqb_spec (type_of (s_cls s)) (type_of (s_cls t))); [|discriminate]. constructor; [rewrite Hs, Ht; cbn; split; congruence|]. apply IH. exact E.
  - intros H. inversion H as [|? ? ? ? [A B] C]; subst. destruct (nth_error (p_syms m) p) as [s|]; [|cbn in A; congruence]. destruct (nth_error (p_syms m') q) as [t|]; [|discriminate]. cbn [rbind].
    cbn in B. injection B as B. rewrite B, ptype_eqb_refl. apply IH. exact C.
Qed.
Lemma types_match_sym m m' ps : forall qs, types_match m m' ps qs = types_match m' m qs ps.
Proof.
  induction ps as [|p ps IH]; intros [|q qs]; try reflexivity. cbn [types_match]. destruct (node m p) as [s| |] eqn:Es, (node m' q) as [t| |] eqn:Et; cbn [rbind]; try reflexivity;
    try (unfold node in *; destruct (nth_error (p_syms m) p); discriminate); try (unfold node in *; destruct (nth_error (p_syms m') q); discriminate).
  rewrite ptype_eqb_sym, IH. reflexivity.
Qed.

(** What the verdicts say. *)
Record matched (m m' : pym) (s t : sym) : Prop := {
  ma_type : type_of (s_cls s) = type_of (s_cls t);
  ma_len : length (s_pred s) = length (s_pred t);
  ma_types : Forall2 (fun p q => ty m p <> None /\ ty m p = ty m' q) (s_pred s) (s_pred t);
  ma_shape : is_array_symbol (s_cls s) = true -> s_shape s = s_shape t }.
Inductive judged (same : bool) (m m' : pym) (x y : nat) (s t : sym) : verdict -> Prop :=
| j_same : same = true -> x = y -> type_of (s_cls s) = type_of (s_cls t) -> judged same m m' x y s t Definitely
| j_const v : s_cls s = KConst v -> s_cls t = KConst v -> matched m m' s t -> judged same m m' x y s t Definitely
| j_maybe : (same = true -> x <> y) -> matched m m' s t -> type_of (s_cls s) <> TConst -> judged same m m' x y s t Maybe
| j_not_type : type_of (s_cls s) <> type_of (s_cls t) -> judged same m m' x y s t Not
| j_not : (same = true -> x <> y) -> (~ matched m m' s t \/ (type_of (s_cls s) = TConst /\ s_cls s <> s_cls t)) -> judged same m m' x y s t Not.
Lemma array_type a b : type_of a = type_of b -> is_array_symbol a = is_array_symbol b.
Proof. destruct a, b; cbn; congruence. Qed.
Lemma verdict_inv same m m' x y v : maybe_equals same m m' x y = Ok v ->
  exists s t, nth_error (p_syms m) x = Some s /\ nth_error (p_syms m') y = Some t /\ judged same m m' x y s t v.
Proof.
  unfold maybe_equals. destruct (node m x) as [s| |] eqn:Es; try discriminate. destruct (node m' y) as [t| |] eqn:Et; try discriminate. cbn [rbind].
  apply node_ok in Es, Et. intros E. exists s, t. split; [exact Es|]. split; [exact Et|].
  assert (B : forall u, symbol_maybe_equals same m m' x y s t = Ok u ->
     match u with
     | Definitely => same = true /\ x = y /\ type_of (s_cls s) = type_of (s_cls t)
     | Maybe => (same = true -> x <> y) /\ (is_array_symbol (s_cls s) = true -> s_shape s = s_shape t) -> matched m m' s t
     | Not => type_of (s_cls s) <> type_of (s_cls t) \/ ((same = true -> x <> y) /\ ~ matched m m' s t)
     end /\ (u = Maybe -> (same = true -> x <> y) /\ type_of (s_cls s) = type_of (s_cls t))).
  { clear E. intros u E. unfold symbol_maybe_equals in E. destruct (ptype_eqb_spec (type_of (s_cls s)) (type_of (s_cls t))) as [T|T]; cbn [negb] in E; [|injection E as <-; split; [auto|discriminate]].
    destruct (same && (x =? y)%nat) eqn:S; [injection E as <-; apply andb_prop in S as [S1 S2]; apply Nat.eqb_eq in S2; split; [auto|discriminate]|].
    assert (NS : same = true -> x <> y) by (intros -> ->; rewrite Nat.eqb_refl in S; discriminate).
    destruct (Nat.eqb_spec (length (s_pred s)) (length (s_pred t))) as [L|L]; cbn [negb] in E; [|injection E as <-; split; [right; split; [exact NS|intros M; apply L; apply M]|discriminate]].
    destruct (types_match m m' (s_pred s) (s_pred t)) as [[|]| |] eqn:TM; cbn [rbind] in E; try discriminate; injection E as <-.
    - split; [|auto]. intros [_ Sh]. constructor; auto. now apply types_match_true.
    - split; [|discriminate]. right. split; [exact NS|]. intros M. pose proof (ma_types _ _ _ _ M) as F. apply types_match_true in F; [congruence|exact L]. }
  assert (A : forall u, array_maybe_equals same m m' x y s t = Ok u ->
     match u with
     | Definitely => same = true /\ x = y /\ type_of (s_cls s) = type_of (s_cls t)
     | Maybe => (same = true -> x <> y) /\ matched m m' s t
     | Not => type_of (s_cls s) <> type_of (s_cls t) \/ ((same = true -> x <> y) /\ ~ matched m m' s t) \/ is_array_symbol (s_cls s) = false
     end).
  { intros u. unfold array_maybe_equals. destruct (symbol_maybe_equals same m m' x y s t) as [u0| |] eqn:E0; cbn [rbind]; try discriminate. destruct (B u0 eq_refl) as [B1 B2]. destruct u0.
    - intros [= <-]. tauto.
    - destruct (B2 eq_refl) as [NS T]. destruct (is_array_symbol (s_cls t)) eqn:I; cbn [negb]; [|intros [= <-]; right; right; now rewrite (array_type _ _ T)].
      destruct (zlist_eqb_spec (s_shape s) (s_shape t)) as [Sh|Sh]; cbn [negb]; intros [= <-]; [split; [exact NS|]; apply B1; auto|].
      right; left. split; [exact NS|]. intros M. apply Sh, M. now rewrite (array_type _ _ T).
    - intros [= <-]. exact B1. }
  destruct (s_cls s) eqn:C; try (pose proof (A v E) as A1; destruct v; [destruct A1 as [A1|[[A1 A2]|A1]]; [apply j_not_type; rewrite C; exact A1|apply j_not; auto|discriminate]|destruct A1; apply j_maybe; auto; rewrite C; discriminate|destruct A1 as (? & ? & ?); apply j_same; auto; rewrite C; assumption]).
  - unfold constant_maybe_equals in E. destruct (array_maybe_equals same m m' x y s t) as [u| |] eqn:E0; cbn [rbind] in E; try discriminate. specialize (A u eq_refl). destruct u.
    + destruct A as [A1|[[A1 A2]|A1]]; [|apply (f_equal (fun r => match r with Ok u => u | _ => Not end)) in E|discriminate].
      * injection E as <-. apply j_not_type. rewrite C. exact A1.
      * cbn in E. subst v. apply j_not; auto.
    + destruct A as [NS M]. pose proof (ma_type _ _ _ _ M) as T. rewrite C in T. cbn in T. destruct (s_cls t) as [w|?|?|?|?|?|?|?|?|?|?|?|?|?|?|?|?| | |?|? ?] eqn:Ct; try discriminate.
      destruct (values_eqb_spec v0 w) as [->|N]; injection E as <-; [eapply j_const; eauto|]. apply j_not; [exact NS|]. right. rewrite C. split; [reflexivity|]. rewrite Ct. congruence.
    + destruct A as (? & ? & ?). injection E as <-. apply j_same; auto. rewrite C. assumption.
  - destruct (B v E) as [B1 B2]. destruct v; [destruct B1 as [B1|[? ?]]; [apply j_not_type; rewrite C; exact B1|apply j_not; auto]| |destruct B1 as (? & ? & ?); apply j_same; auto; rewrite C; assumption].
    destruct (B2 eq_refl) as [NS T]. apply j_maybe; [exact NS|apply B1; split; [exact NS|discriminate]|rewrite C; discriminate].
  - destruct (B v E) as [B1 B2]. destruct v; [destruct B1 as [B1|[? ?]]; [apply j_not_type; rewrite C; exact B1|apply j_not; auto]| |destruct B1 as (? & ? & ?); apply j_same; auto; rewrite C; assumption].
    destruct (B2 eq_refl) as [NS T]. apply j_maybe; [exact NS|apply B1; split; [exact NS|discriminate]|rewrite C; discriminate].
Qed.
