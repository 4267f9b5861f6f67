From Verif Require Import Base GraphModel GraphSpec GraphProofs GraphProofs2 GraphProofs3 LockModel LockSpec.
From Coq Require Import Relations.

Lemma Inc_acyclic g : Inc g -> acyclic g.
Proof.
  intros Hi n Hn. assert (Hlt : forall a b, reaches1 g a b -> a < b).
  { induction 1 as [a b Ed|a b c H1 IH1 H2 IH2]; [now apply (inc_edge _ Hi)|lia]. }
  specialize (Hlt n n Hn). lia.
Qed.

Lemma tidx_nondec g n : WF g -> gsorted g = false -> In n (gnodes g) -> ~ In n (gdec g) -> tidx g n = None.
Proof.
  intros H Hs Hn Hd. unfold tidx. rewrite (tkey_nth (gtopo g) n) by (rewrite (wf_lt _ H); now apply alive_lt).
  now rewrite (wf_u _ H Hs n Hn Hd).
Qed.
Lemma tidx_dec g i d : WF g -> nth_error (gdec g) i = Some d -> tidx g d = Some i.
Proof.
  intros H Hd. unfold tidx.
  assert (Hn : In d (gnodes g)) by (apply (wf_di _ H); eapply nth_error_In; eauto).
  rewrite (tkey_nth (gtopo g) d) by (rewrite (wf_lt _ H); now apply alive_lt).
  rewrite (wf_dt _ H i d Hd). destruct (Z.ltb_spec (Z.of_nat i) 0); [lia|]. now rewrite Nat2Z.id.
Qed.
Lemma tidx_dec_in g d : WF g -> In d (gdec g) -> exists i, tidx g d = Some i /\ i < length (gdec g) /\ nth_error (gdec g) i = Some d.
Proof.
  intros H Hd. apply In_nth_error in Hd as [i Hi]. exists i. split; [now apply tidx_dec|].
  split; auto. apply nth_error_Some. congruence.
Qed.
Lemma tidx_nondec_ge g n i : WF g -> gsorted g = true -> In n (gnodes g) -> ~ In n (gdec g) -> tidx g n = Some i -> length (gdec g) <= i.
Proof.
  intros H Hs Hn Hd E. destruct (tidx_live g H Hs n Hn) as [j [Ej [Nj _]]]. assert (i = j) by congruence. subst j.
  destruct (wf_s _ H Hs) as [[rest Er] _]. rewrite Er in Nj.
  destruct (Nat.lt_ge_cases i (length (gdec g))) as [Hl|Hl]; auto.
  rewrite nth_error_app1 in Nj by auto. exfalso. apply Hd. eapply nth_error_In; eauto.
Qed.
Section P.
Context {S : Type}.
Variable ninit : nat -> list S -> S.

Definition coh1 (g : graph) (st : list (option S)) : Prop :=
  forall n x, In n (gnodes g) -> ~ In n (gdec g) -> state_of g st n = Some x ->
    exists ss, map (state_of g st) (oget (gpred g) n) = map Some ss /\ x = ninit n ss.

Lemma nondec_none g st n : WF g -> (gsorted g = true -> length st <= length (gdec g)) -> In n (gnodes g) -> ~ In n (gdec g) ->
  @state_of S g st n = None.
Proof.
  intros H Hl Hn Hd. unfold state_of. destruct (tidx g n) as [i|] eqn:E; auto.
  destruct (gsorted g) eqn:Hs.
  - pose proof (tidx_nondec_ge g n i H Hs Hn Hd E). specialize (Hl eq_refl).
    assert (N : nth_error st i = None) by (apply nth_error_None; lia). now rewrite N.
  - rewrite (tidx_nondec g n H Hs Hn Hd) in E. discriminate.
Qed.
Lemma coh_short g st : WF g -> (gsorted g = true -> length st <= length (gdec g)) -> coh1 g st.
Proof. intros H Hl n x Hn Hd E. rewrite nondec_none in E; auto. discriminate. Qed.

Lemma map_state_keep g (st st' : list (option S)) ps ss :
  (forall p x, In p ps -> state_of g st p = Some x -> state_of g st' p = Some x) ->
  map (state_of g st) ps = map Some ss -> map (state_of g st') ps = map Some ss.
Proof.
  revert ss. induction ps as [|p ps IH]; intros [|s ss] Hk E; try discriminate E; auto.
  cbn [map] in *. injection E as E1 E2. f_equal.
  - apply Hk; [now left|auto].
  - apply IH; auto. intros q x Hq. apply Hk. now right.
Qed.

Lemma pred_in g p n : WF g -> In n (gnodes g) -> In p (oget (gpred g) n) -> In p (gnodes g).
Proof. intros H Hn Hp. now apply (edge_in g p n H). Qed.

Lemma coh_IP g st Ts st' : WF g -> coh1 g st -> IP g ninit st Ts st' -> coh1 g st'.
Proof.
  intros H Hc P n x Hn Hd E. destruct (state_of g st n) as [y|] eqn:Ey.
  - pose proof (ip_old _ _ _ _ _ P n y Hn Ey) as E'. assert (x = y) by congruence. subst y.
    destruct (Hc n x Hn Hd Ey) as [ss [E1 E2]]. exists ss. split; auto.
    eapply map_state_keep; [|exact E1]. intros p z Hp Ez. apply (ip_old _ _ _ _ _ P); auto. exact (pred_in g p n H Hn Hp).
  - destruct (ip_set _ _ _ _ _ P n Hn) as [Hc'|Hc']; [congruence|congruence|].
    destruct (ip_new _ _ _ _ _ P n Hc') as [ss [E1 E2]]. exists ss. split; [auto|congruence].
Qed.

Lemma coh_RP g st t st' : WF g -> coh1 g st -> RP g st [t] st' -> coh1 g st'.
Proof.
  intros H Hc P n x Hn Hd E.
  assert (Hr : ~ reaches g t n).
  { intros Hr. rewrite (rp_clear _ _ _ _ P t n) in E; auto. discriminate. now left. }
  assert (Ek : state_of g st' n = state_of g st n) by (apply (rp_keep _ _ _ _ P); auto; intros ? [<- | []]; auto).
  rewrite Ek in E. destruct (Hc n x Hn Hd E) as [ss [E1 E2]]. exists ss. split; auto.
  eapply map_state_keep; [|exact E1]. intros p z Hp Ez.
  rewrite (rp_keep _ _ _ _ P); auto; [exact (pred_in g p n H Hn Hp)|].
  intros ? [<- | []] Hr'. apply Hr. eapply rt_trans; [exact Hr'|]. apply rt_step. split; auto.
Qed.

Lemma state_lset g st d k v n : WF g -> gsorted g = true -> In d (gnodes g) -> In n (gnodes g) -> tidx g d = Some k ->
  k < length st -> state_of g (lset k (Some v) st) n = if Nat.eq_dec n d then Some v else @state_of S g st n.
Proof.
  intros H Hs Hd Hn Hk Hl. unfold state_of. destruct (Nat.eq_dec n d) as [-> |Hne].
  - rewrite Hk. now rewrite nth_error_lset_eq.
  - destruct (tidx g n) as [j|] eqn:Ej; auto. rewrite nth_error_lset_neq; auto.
    intros <-. apply Hne. now apply (tidx_inj g H Hs n d k).
Qed.

Lemma coh_set g st d k v : WF g -> gsorted g = true -> coh1 g st -> In d (gdec g) -> tidx g d = Some k ->
  k < length st -> state_of g st d = None -> coh1 g (lset k (Some v) st).
Proof.
  intros H Hs Hc Hd Hk Hl Hnone n x Hn Hnd E. assert (Hdn : In d (gnodes g)) by now apply (wf_di _ H).
  rewrite (state_lset g st d k v n) in E; auto. destruct (Nat.eq_dec n d) as [-> |Hne]; [contradiction|].
  destruct (Hc n x Hn Hnd E) as [ss [E1 E2]]. exists ss. split; auto.
  eapply map_state_keep; [|exact E1]. intros p z Hp Ez.
  assert (Hpn : In p (gnodes g)) by exact (pred_in g p n H Hn Hp).
  rewrite (state_lset g st d k v p) by auto.
  destruct (Nat.eq_dec p d) as [-> |_]; [congruence|auto].
Qed.

(** Values *)
Lemma IP_value g st Ts st' : WF g -> gsorted g = true -> acyclic g -> coh1 g st' -> IP g ninit st Ts st' ->
  forall i n x, tidx g n = Some i -> In n (gnodes g) -> state_of g st' n = Some x -> value ninit g (state_of g st) n x.
Proof.
  intros H Hs Ha Hc P. induction i as [i IH] using lt_wf_ind. intros n x Ei Hn E.
  destruct (in_dec Nat.eq_dec n (gdec g)) as [Hd|Hd].
  - destruct (state_of g st n) as [y|] eqn:Ey.
    + pose proof (ip_old _ _ _ _ _ P n y Hn Ey) as E'. assert (x = y) by congruence. subst y.
      pose proof (v_dec ninit g (state_of g st) n Hd) as V. now rewrite Ey in V.
    + destruct (ip_set _ _ _ _ _ P n Hn) as [Hc'|Hc']; [congruence|congruence|].
      destruct (ip_new _ _ _ _ _ P n Hc') as [ss [E1 E2]]. rewrite (wf_dp _ H n Hd) in E1.
      destruct ss; [|discriminate E1]. pose proof (v_dec ninit g (state_of g st) n Hd) as V. rewrite Ey in V. congruence.
  - destruct (Hc n x Hn Hd E) as [ss [E1 ->]]. apply v_node; auto.
    assert (Hp : forall p, In p (oget (gpred g) n) -> edge g p n) by (intros p Hp; split; auto).
    clear E. revert ss E1. induction (oget (gpred g) n) as [|p ps IHp]; intros [|s ss] E1; try discriminate E1; constructor.
    + cbn [map] in E1. injection E1 as E1 E2. assert (Ed : edge g p n) by (apply Hp; now left).
      destruct (tidx_live g H Hs p) as [j [Ej _]]; [now apply (edge_in g p n)|].
      apply IH with j; auto; [|now apply (edge_in g p n)]. now apply (edge_lt g H Hs p n j i Ha Ed).
    + cbn [map] in E1. injection E1 as E1 E2. apply IHp; auto. intros q Hq. apply Hp. now right.
Qed.
End P.
