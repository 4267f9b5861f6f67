From Verif Require Import Base GraphModel GraphSpec GraphProofs GraphProofs2 GraphProofs3 LockModel LockSpec LockProofs.
From Coq Require Import Relations.

Lemma Forall_lset {A} (P : A -> Prop) i x (l : list A) : P x -> Forall P l -> Forall P (lset i x l).
Proof.
  intros Hx H. revert i. induction H as [|y l Hy H IH]; intros [|i]; cbn [lset]; auto.
Qed.

Section Q.
Context {S : Type}.
Variable ninit : nat -> list S -> S.
Notation model := (model S).

Definition room (m : model) : nat := if is_locked m then length (gnodes (mg m)) else length (gdec (mg m)).
Record LI (m : model) : Prop := {
  li_inc : Inc (mg m);
  li_s : gsorted (mg m) = is_locked m;
  li_len : Forall (fun st => length st <= room m) (mstates m);
  li_coh : Forall (coh1 ninit (mg m)) (mstates m) }.

Lemma dec_le_nodes g : WF g -> length (gdec g) <= length (gnodes g).
Proof. intros H. apply NoDup_incl_length; apply H. Qed.

Lemma LI_unsorted g l sts : Inc g -> gsorted g = false -> l = 0 -> Forall (fun st => length st <= length (gdec g)) sts -> LI (Model g l sts).
Proof.
  intros Hi Hs -> Hl. constructor; cbn [mg mlocks mstates]; auto.
  eapply Forall_impl; [|exact Hl]. intros st L. apply coh_short; [apply Hi|congruence].
Qed.

(** A step of the graph alone, without effect on nodes and indices. *)
Lemma LI_same g g' l sts : Inc g' -> gnodes g' = gnodes g -> gdec g' = gdec g -> gpred g' = gpred g -> gtopo g' = gtopo g ->
  gsorted g' = gsorted g -> LI (Model g l sts) -> LI (Model g' l sts).
Proof.
  intros Hi E1 E2 E3 E4 E5 [_ Hs Hl Hc]. unfold room in Hl. cbn [mg mlocks mstates] in *. constructor; unfold room; cbn [mg mlocks mstates]; auto.
  - rewrite E5. exact Hs.
  - rewrite E1, E2. exact Hl.
  - eapply Forall_impl; [|exact Hc]. intros st C n x. unfold coh1, state_of, tidx in *. rewrite E1, E2, E3, E4. apply C.
Qed.

Lemma vresize_grow (st : list (option S)) N : length st <= N -> vresize N None st = grow_state N st.
Proof. intros L. unfold vresize, grow_state. now rewrite firstn_all2. Qed.

(** Resetting. *)
Definition cleared (g : graph) (st : list (option S)) (n : nat) (st' : list (option S)) : Prop :=
  forall k, In k (gnodes g) -> (reaches g n k -> state_of g st' k = None) /\ (~ reaches g n k -> state_of g st' k = state_of g st k).

Lemma reaches_nondec g n k : WF g -> reaches g n k -> k = n \/ ~ In k (gdec g).
Proof.
  intros H Hr. apply clos_rt_rtn1 in Hr. destruct Hr as [|y z E _]; auto. right. now apply (edge_nondec g y z).
Qed.

Lemma reset_unsorted g st n i fuel : WF g -> gsorted g = false -> In n (gnodes g) -> tidx g n = Some i -> i < length st ->
  @recursive_reset S g (Datatypes.S fuel) st n = Ok (lset i None st).
Proof.
  intros H Hs Hn Hi Hl. cbn [recursive_reset]. rewrite Hi. destruct (Nat.leb_spec (length st) i); [lia|].
  assert (Hsucc : forall m, In m (oget (gsucc g) n) -> tidx g m = None).
  { intros m Hm. assert (Ed : edge g n m) by (apply edge_succ; auto).
    apply tidx_nondec; auto; [apply Ed|now apply (edge_nondec g n m)]. }
  induction (oget (gsucc g) n) as [|m ms IH]; auto. cbn [rfold]. rewrite Hsucc by now left. apply IH. intros k Hk. apply Hsucc. now right.
Qed.

Lemma index_dec g n i : WF g -> gsorted g = false -> In n (gnodes g) -> tidx g n = Some i -> In n (gdec g).
Proof.
  intros H Hs Hn Hi. destruct (in_dec Nat.eq_dec n (gdec g)) as [|Hd]; auto. rewrite tidx_nondec in Hi; auto. discriminate.
Qed.

Lemma tidx_room m n i : LI m -> In n (gnodes (mg m)) -> tidx (mg m) n = Some i -> i < room m.
Proof.
  intros [Hi Hs _ _] Hn E. pose proof (inc_wf _ Hi) as H. unfold room. destruct (is_locked m) eqn:EL.
  - destruct (tidx_live _ H Hs n Hn) as [j [Ej [_ Lj]]]. congruence.
  - pose proof (index_dec _ n i H Hs Hn E) as Hd. destruct (tidx_dec_in _ n H Hd) as [j [Ej [Lj _]]]. congruence.
Qed.

Lemma reset_spec m n i st : LI m -> In n (gnodes (mg m)) -> nth_error (mstates m) i = Some st ->
  exists st', reset_state m n i = Some (Model (mg m) (mlocks m) (lset i st' (mstates m)), true) /\
    cleared (mg m) st n st' /\ length st' <= room m /\ coh1 ninit (mg m) st' /\
    (forall k, tidx (mg m) n = Some k -> k < length st').
Proof.
  intros L Hn Hst. pose proof L as [Hi Hs Hl Hc]. pose proof (inc_wf _ Hi) as H.
  rewrite Forall_forall in Hl, Hc. pose proof (nth_error_In _ _ Hst) as Hin. specialize (Hl _ Hin). specialize (Hc _ Hin).
  unfold reset_state, index_of. rewrite Hst. destruct (tidx (mg m) n) as [k|] eqn:Ek.
  - pose proof (tidx_room m n k L Hn Ek) as Hk.
    set (st0 := if length st <=? k then vresize (k + 1) None st else st).
    assert (Hg0 : forall q, state_of (mg m) st0 q = state_of (mg m) st q).
    { intros q. unfold st0. destruct (Nat.leb_spec (length st) k); auto. rewrite vresize_grow by lia. apply get_grow. }
    assert (Hl0 : k < length st0 /\ length st0 <= room m).
    { unfold st0. destruct (Nat.leb_spec (length st) k); [|lia]. rewrite vresize_grow by lia. unfold grow_state. rewrite app_length, repeat_length. lia. }
    assert (Hc0 : coh1 ninit (mg m) st0).
    { intros q x Hq Hd E. rewrite Hg0 in E. destruct (Hc q x Hq Hd E) as [ss [E1 E2]]. exists ss. split; auto.
      rewrite <- E1. apply map_ext. intros; apply Hg0. }
    unfold fuel_of. destruct (is_locked m) eqn:EL.
    + destruct (rec_reset_spec (mg m) H Hs (Inc_acyclic _ Hi) (length (gnodes (mg m)) + 1) st0 n k Hn Ek) as [st' [E P]]; [lia|].
      rewrite E. exists st'. split; auto. split; [|split; [|split]].
      * intros q Hq. split; intros Hr.
        -- apply (rp_clear _ _ _ _ P n q); auto. now left.
        -- rewrite (rp_keep _ _ _ _ P); auto. intros ? [<- | []]; auto.
      * rewrite (rp_len _ _ _ _ P). lia.
      * eapply coh_RP; eauto.
      * intros k' E'. rewrite (rp_len _ _ _ _ P). assert (k = k') by congruence. lia.
    + rewrite Nat.add_1_r. rewrite (reset_unsorted (mg m) st0 n k) by (auto; lia).
      exists (lset k None st0). split; auto. pose proof (index_dec _ n k H Hs Hn Ek) as Hd.
      assert (Hnone : forall s q, In q (gnodes (mg m)) -> ~ In q (gdec (mg m)) -> @state_of S (mg m) s q = None).
      { intros s q Hq Hqd. apply nondec_none; auto. congruence. }
      split; [|split; [|split]].
      * intros q Hq. split; intros Hr.
        -- destruct (reaches_nondec _ n q H Hr) as [-> |Hqd]; [|now apply Hnone].
           unfold state_of. rewrite Ek, nth_error_lset_eq by lia. auto.
        -- rewrite <- Hg0. destruct (in_dec Nat.eq_dec q (gdec (mg m))) as [Hqd|Hqd]; [|now rewrite !Hnone].
           unfold state_of. destruct (tidx_dec_in _ q H Hqd) as [j [Ej [Lj Nj]]]. rewrite Ej.
           rewrite nth_error_lset_neq; auto. intros <-. apply Hr.
           destruct (tidx_dec_in _ n H Hd) as [j [Ej' [Lj' Nj']]]. assert (j = k) by congruence. subst j.
           assert (q = n) by congruence. subst q. apply rt_refl.
      * rewrite lset_length. lia.
      * apply coh_short; auto. congruence.
      * intros k' E'. rewrite lset_length. assert (k = k') by congruence. lia.
  - exists st. split; [rewrite lset_same by auto; now destruct m|]. split; [|split; [|split]]; auto; [|congruence].
    intros q Hq. split; auto. intros Hr.
    assert (Hs' : gsorted (mg m) = false).
    { destruct (gsorted (mg m)) eqn:E; auto. destruct (tidx_live _ H E n Hn) as [j [Ej _]]. congruence. }
    assert (Hnd : ~ In n (gdec (mg m))).
    { intros Hd. destruct (tidx_dec_in _ n H Hd) as [j [Ej _]]. congruence. }
    apply nondec_none; auto; [congruence|].
    destruct (reaches_nondec _ n q H Hr) as [-> |Hqd]; auto.
Qed.

Lemma LI_put m i st' : LI m -> length st' <= room m -> coh1 ninit (mg m) st' -> LI (Model (mg m) (mlocks m) (lset i st' (mstates m))).
Proof.
  intros [Hi Hs Hl Hc] L C. constructor; auto; cbn [mg mstates].
  - change (room (Model (mg m) (mlocks m) (lset i st' (mstates m)))) with (room m). now apply Forall_lset.
  - now apply Forall_lset.
Qed.

(** Setting the state of a decision. *)
Lemma set_spec m n i v st : LI m -> In n (gdec (mg m)) -> nth_error (mstates m) i = Some st ->
  exists st', set_state m n i v = Some (Model (mg m) (mlocks m) (lset i st' (mstates m)), match v with Some _ => true | None => false end) /\
    LI (Model (mg m) (mlocks m) (lset i st' (mstates m))) /\
    state_of (mg m) st' n = v /\
    (forall k, In k (gnodes (mg m)) -> k <> n -> (reaches (mg m) n k -> state_of (mg m) st' k = None) /\ (~ reaches (mg m) n k -> state_of (mg m) st' k = state_of (mg m) st k)).
Proof.
  intros L Hd Hst. pose proof L as [Hi Hs Hl Hc]. pose proof (inc_wf _ Hi) as H.
  assert (Hn : In n (gnodes (mg m))) by now apply (wf_di _ H).
  destruct (reset_spec m n i st L Hn Hst) as (st1 & E1 & C1 & L1 & Co1 & K1).
  unfold set_state. rewrite E1. unfold index_of. cbn [mg mstates mlocks]. destruct v as [v|].
  - destruct (tidx_dec_in _ n H Hd) as [k [Ek [Lk Nk]]]. rewrite Ek.
    rewrite nth_error_lset_eq by (apply nth_error_Some; congruence). specialize (K1 k Ek).
    destruct (Nat.ltb_spec k (length st1)); [|lia]. rewrite lset_lset. exists (lset k (Some v) st1). split; auto.
    assert (Hset : forall q, In q (gnodes (mg m)) -> state_of (mg m) (lset k (Some v) st1) q = if Nat.eq_dec q n then Some v else state_of (mg m) st1 q).
    { intros q Hq. destruct (gsorted (mg m)) eqn:Es; [now apply state_lset|].
      unfold state_of. destruct (Nat.eq_dec q n) as [-> |Hne]; [now rewrite Ek, nth_error_lset_eq|].
      destruct (tidx (mg m) q) as [j|] eqn:Ej; auto. rewrite nth_error_lset_neq; auto. intros <-. apply Hne.
      pose proof (index_dec _ q k H Es Hq Ej) as Hqd. destruct (tidx_dec_in _ q H Hqd) as [j [Ej' [_ Nj']]]. congruence. }
    split; [|split].
    + apply LI_put; auto; [now rewrite lset_length|]. destruct (gsorted (mg m)) eqn:Es.
      * apply coh_set with n; auto. apply C1; auto. apply rt_refl.
      * apply coh_short; auto. congruence.
    + rewrite Hset by auto. now destruct (Nat.eq_dec n n).
    + intros q Hq Hne. rewrite Hset by auto. destruct (Nat.eq_dec q n); [contradiction|]. now apply C1.
  - exists st1. split; auto. split; [now apply LI_put|]. split; [apply C1; auto; apply rt_refl|]. intros q Hq _. now apply C1.
Qed.
End Q.
