(** Lemmas for C72. *)
From Verif Require Import Base GraphModel GraphSpec GraphProofs GraphProofs2 GraphProofs3 LockModel LockSpec LockProofs LockProofs2 LockProofs3 FeasModel FeasSpec.

Section P.
Context {S : Type}.
Variable ninit : nat -> list S -> S.
Variable kind : nat -> nat.
Variable truth : S -> bool.

(** A node has one value. *)
Lemma value_det g dec n x : value ninit g dec n x -> forall y, value ninit g dec n y -> x = y.
Proof.
  revert n x. fix F 3. intros n x V. destruct V as [d Hd|n ss Hn Hnd VS]; intros y W.
  - inversion W as [d' Hd' E1 E2|n' ss' Hn' Hnd' VS' E1 E2]; subst; [reflexivity|contradiction].
  - inversion W as [d' Hd' E1 E2|n' ss' Hn' Hnd' VS' E1 E2]; subst; [contradiction|]. f_equal.
    clear - F VS VS'. revert ss' VS'. induction VS as [|p s l t V1 VS IH]; intros ss' VS'; inversion VS'; subst; [reflexivity|].
    f_equal; [now apply (F _ _ V1)|]. now apply IH.
Qed.

Lemma value_ext g dec dec' : (forall d, In d (gdec g) -> match dec d with Some x => x | None => ninit d [] end = match dec' d with Some x => x | None => ninit d [] end) ->
  forall n x, value ninit g dec n x -> value ninit g dec' n x.
Proof.
  intros E. fix F 3. intros n x V. destruct V as [d Hd|n ss Hn Hnd VS].
  - rewrite (E d Hd). now apply v_dec.
  - apply v_node; auto. clear - F VS. induction VS as [|p s l t V1 VS IH]; constructor; auto.
Qed.

(** What reading leaves of the states of the decisions. *)
Definition grown (g : graph) (st st' : list (option S)) : Prop :=
  (forall k y, In k (gnodes g) -> state_of g st k = Some y -> state_of g st' k = Some y) /\
  (forall d, In d (gdec g) -> match state_of g st d with Some x => x | None => ninit d [] end = match state_of g st' d with Some x => x | None => ninit d [] end).

Lemma grown_refl g st : grown g st st.
Proof. split; auto. Qed.
Lemma grown_trans g a b c : grown g a b -> grown g b c -> grown g a c.
Proof. intros [A1 A2] [B1 B2]. split; [eauto|]. intros d Hd. rewrite A2, B2; auto. Qed.

Lemma IP_grown g st n st' : WF g -> IP g ninit st [n] st' -> grown g st st'.
Proof.
  intros H P. split; [intros k y; apply (ip_old _ _ _ _ _ P)|]. intros d Hd. pose proof (wf_di _ H d Hd) as Hn.
  destruct (state_of g st d) as [x|] eqn:E; [now rewrite (ip_old _ _ _ _ _ P d x Hn E)|].
  destruct (state_of g st' d) as [y|] eqn:E'; [|reflexivity].
  destruct (ip_set _ _ _ _ _ P d Hn) as [Q|Q]; [congruence|congruence|].
  destruct (ip_new _ _ _ _ _ P d Q) as (ss & E1 & E2). rewrite (wf_dp _ H d Hd) in E1. destruct ss; [|discriminate]. congruence.
Qed.

Lemma state_at_ok (m : model S) n index i : py_index (length (mstates m)) index i -> state_at ninit m n index = read_state ninit m n i.
Proof.
  intros [L E]. unfold state_at.
  replace (negb ((- Z.of_nat (length (mstates m)) <=? index) && (index <? Z.of_nat (length (mstates m))))%Z) with false by lia.
  f_equal. destruct (Z.ltb_spec index 0); lia.
Qed.
Lemma state_at_out (m : model S) n index : (forall i, ~ py_index (length (mstates m)) index i) -> state_at ninit m n index = Some (m, None).
Proof.
  intros N. unfold state_at. destruct (negb _) eqn:E; [reflexivity|]. exfalso.
  apply (N (Z.to_nat (if (index <? 0)%Z then index + Z.of_nat (length (mstates m)) else index))). unfold py_index.
  destruct (Z.ltb_spec index 0); lia.
Qed.

(** How the loop ends. *)
Definition outcome (m : model S) (st : list (option S)) (cs : list nat) (r : option bool) : Prop :=
  (r = Some true /\ Forall (fun c => readable m c /\ satisfied ninit truth (mg m) st c) cs) \/
  (exists pre c post, cs = pre ++ c :: post /\ Forall (fun c => readable m c /\ satisfied ninit truth (mg m) st c) pre /\
     ((readable m c /\ violated ninit truth (mg m) st c /\ r = Some false) \/ (~ readable m c /\ r = None))).

Lemma unreadable m n i st : LI ninit m -> In n (gnodes (mg m)) -> ~ readable m n -> nth_error (mstates m) i = Some st -> read_state ninit m n i = Some (m, None).
Proof.
  intros L Hn R Hst. pose proof (inc_wf _ (li_inc _ _ L)) as H. unfold read_state.
  assert (Ha : alive (mg m) n = true) by now apply (wf_al _ H). rewrite Ha. cbn [negb].
  destruct (is_locked m) eqn:EL; [exfalso; apply R; now left|]. unfold index_of. destruct (tidx (mg m) n) as [k|] eqn:Ek; [|reflexivity].
  exfalso. apply R. right. apply (index_dec (mg m) n k); auto. now rewrite (li_s _ _ L).
Qed.

Lemma loop_ok index i : forall cs m st, LI ninit m -> incl cs (gnodes (mg m)) -> py_index (length (mstates m)) index i -> nth_error (mstates m) i = Some st ->
  exists m' r st', feas_loop ninit truth cs m index = Some (m', r) /\ LI ninit m' /\ mg m' = mg m /\ mlocks m' = mlocks m /\ mstates m' = lset i st' (mstates m) /\
    grown (mg m) st st' /\ outcome m st cs r.
Proof.
  induction cs as [|c t IH]; intros m st L I PI Hst.
  - exists m, (Some true), st. split; [reflexivity|]. split; [exact L|]. split; [reflexivity|]. split; [reflexivity|].
    split; [symmetry; now apply lset_same|]. split; [apply grown_refl|]. left. split; [reflexivity|constructor].
  - pose proof (inc_wf _ (li_inc _ _ L)) as H. cbn [feas_loop]. rewrite (state_at_ok m c index i PI).
    assert (Hc : In c (gnodes (mg m))) by (apply I; now left).
    assert (D : readable m c \/ ~ readable m c).
    { unfold readable. destruct (is_locked m); [now left; left|]. destruct (in_dec Nat.eq_dec c (gdec (mg m))) as [Q|Q]; [now left; right|].
      right. intros [Q'|Q']; [discriminate|contradiction]. }
    destruct D as [R|R].
    + destruct (read_spec ninit kind m c i st L Hc R Hst) as (st1 & x & E & L1 & _ & P & V). rewrite E.
      pose proof (IP_grown (mg m) st c st1 H P) as G1. set (m1 := Model (mg m) (mlocks m) (lset i st1 (mstates m))) in *.
      destruct (truth x) eqn:T.
      * assert (Li : i < length (mstates m)) by apply PI.
        destruct (IH m1 st1) as (m' & r & st' & E2 & L2 & G & K & MS & GR & O); auto.
        { intros y Hy. apply I. now right. }
        { unfold m1. cbn [mstates]. now rewrite lset_length. }
        { unfold m1. cbn [mstates]. now apply nth_error_lset_eq. }
        exists m', r, st'. split; [exact E2|]. split; [exact L2|]. split; [exact G|]. split; [exact K|].
        split; [rewrite MS; unfold m1; cbn [mstates]; apply lset_lset|]. split; [exact (grown_trans _ _ _ _ G1 GR)|].
        assert (Q : forall d, readable m1 d <-> readable m d) by (intros d; reflexivity).
        assert (B : forall n y, value ninit (mg m) (state_of (mg m) st1) n y -> value ninit (mg m) (state_of (mg m) st) n y).
        { apply value_ext. intros d Hd. symmetry. now apply (proj2 G1). }
        assert (FS : forall l, Forall (fun c => readable m1 c /\ satisfied ninit truth (mg m1) st1 c) l -> Forall (fun c => readable m c /\ satisfied ninit truth (mg m) st c) l).
        { intros l F. eapply Forall_impl; [|exact F]. intros d [Rd (y & Vy & Ty)]. split; [exact Rd|]. exists y. split; [now apply B|exact Ty]. }
        assert (S1 : readable m c /\ satisfied ninit truth (mg m) st c) by (split; [exact R|exists x; auto]).
        destruct O as [[-> F]|(pre & d & post & -> & F & O)].
        -- left. split; [reflexivity|]. constructor; auto.
        -- right. exists (c :: pre), d, post. split; [reflexivity|]. split; [constructor; auto|].
           destruct O as [(Rd & (y & Vy & Ty) & ->)|(Rd & ->)]; [left|right; auto]. split; [exact Rd|]. split; [|reflexivity]. exists y. split; [now apply B|exact Ty].
      * exists m1, (Some false), st1. split; [reflexivity|]. split; [exact L1|]. split; [reflexivity|]. split; [reflexivity|]. split; [reflexivity|]. split; [exact G1|].
        right. exists [], c, t. split; [reflexivity|]. split; [constructor|]. left. split; [exact R|]. split; [exists x; auto|reflexivity].
    + rewrite (unreadable m c i st L Hc R Hst). exists m, None, st. split; [reflexivity|]. split; [exact L|]. split; [reflexivity|]. split; [reflexivity|].
      split; [symmetry; now apply lset_same|]. split; [apply grown_refl|]. right. exists [], c, t. split; [reflexivity|]. split; [constructor|]. right. auto.
Qed.
End P.
