From Coq Require Import Relations Sorting.Sorted Permutation.
From Verif Require Import Base SliceModel StateDataModel StateDataSpec NodeSpec GraphModel GraphSpec GraphProofs GraphProofs2 GraphProofs3 GraphProps ViewModel ViewSpec ProposeModel ProposeSpec.
From Coq Require Import Eqdep_dec.
Local Open Scope nat_scope.

Lemma all_some_same {A B} (h : A -> option B) (P : A -> B) l : Forall (fun m => h m = Some (P m)) l -> all_some (map h l) = Some (map P l).
Proof. induction 1 as [|m l E _ IH]; [reflexivity|]. cbn [map all_some]. now rewrite E, IH. Qed.

Section P.
Context {V : Type}.
Variable veqb : V -> V -> bool.
Variable N : nat -> vnode V.
Variable G : nat -> pin V -> Prop.
Variable F : nat -> list (list V) -> option (list V).
Variable start : forall n, vn_ST (N n) -> Prop.
Variable step : forall n, vn_ST (N n) -> vn_ST (N n) -> Prop.
Variable g : graph.
Hypothesis WM : wf_model veqb N G F start step g.
Notation preds n := (oget (gpred g) n).
Notation live n := (In n (gnodes g)).

Lemma sset_eq st n x : sset N st n x n = Some x.
Proof. unfold sset. destruct (Nat.eq_dec n n) as [e|]; [|congruence]. now rewrite <- (eq_rect_eq_dec Nat.eq_dec). Qed.
Lemma sset_neq st n x m : n <> m -> sset N st n x m = st m.
Proof. intros H. unfold sset. destruct (Nat.eq_dec n m); [congruence|reflexivity]. Qed.

(** ** The order *)
Definition t (n : nat) : Z := tkey (gtopo g) n.
Lemma wm_WF : WF g.
Proof. destruct WM as ((ops & H) & _). exact (history_WF ops g H). Qed.
Lemma wm_sorted : gsorted g = true.
Proof. apply WM. Qed.
Lemma t_range n : live n -> (0 <= t n < Z.of_nat (length (gnodes g)))%Z.
Proof.
  intros Hn. destruct (In_nth_error _ _ Hn) as [i Hi]. destruct (wf_s _ wm_WF wm_sorted) as (_ & Hk & _). unfold t. rewrite (Hk i n Hi).
  assert (i < length (gnodes g)) by (apply nth_error_Some; congruence). lia.
Qed.
Lemma t_inj n m : live n -> live m -> t n = t m -> n = m.
Proof.
  intros Hn Hm E. destruct (In_nth_error _ _ Hn) as [i Hi]. destruct (In_nth_error _ _ Hm) as [j Hj].
  destruct (wf_s _ wm_WF wm_sorted) as (_ & Hk & _). unfold t in E. rewrite (Hk i n Hi), (Hk j m Hj) in E. assert (i = j) by lia. subst. congruence.
Qed.
Lemma pred_live n m : live n -> In m (preds n) -> live m.
Proof. intros Hn Hm. destruct (wf_link _ wm_WF) as (_ & _ & H). eapply H; eauto. Qed.
Lemma t_pred n m : live n -> In m (preds n) -> (t m < t n)%Z.
Proof.
  intros Hn Hm. assert (E : edge g m n) by (split; assumption). destruct (wf_s _ wm_WF wm_sorted) as (_ & _ & Hk). pose proof (Hk m n E) as L.
  destruct (Z.eq_dec (t m) (t n)) as [Eq|]; [|unfold t in *; lia]. exfalso. assert (m = n) by (apply t_inj; auto; eapply pred_live; eauto). subst.
  destruct WM as (_ & _ & Ha & _). apply (Ha n). now apply t_step.
Qed.
Lemma topo_ind (Q : nat -> Prop) : (forall n, live n -> (forall m, In m (preds n) -> Q m) -> Q n) -> forall n, live n -> Q n.
Proof.
  intros H n Hn. remember (Z.to_nat (t n)) as k eqn:Ek. revert n Hn Ek. induction k as [k IH] using lt_wf_ind. intros n Hn ->. apply H; [exact Hn|]. intros m Hm.
  apply (IH (Z.to_nat (t m))); [pose proof (t_pred n m Hn Hm); pose proof (t_range m (pred_live n m Hn Hm)); lia|now apply (pred_live n)|reflexivity].
Qed.

(** ** Reading *)
Lemma pin_rec (C : nat -> Prop) st P : (forall n, C n -> live n /\ forall m, In m (preds n) -> C m) ->
  (forall n, C n -> exists s, st n = Some s /\ vn_out (N n) s (map P (preds n)) = Some (P n)) ->
  forall f n, C n -> (t n < Z.of_nat f)%Z -> pin_at N g f st n = Some (P n).
Proof.
  intros HC HS f. induction f as [|f IH]; intros n Hn Hf; [destruct (HC n Hn) as [Hl _]; pose proof (t_range n Hl); lia|].
  destruct (HC n Hn) as [Hl Hp]. destruct (HS n Hn) as (s & E1 & E2). cbn [pin_at]. rewrite E1.
  rewrite (all_some_same _ P); [exact E2|]. apply Forall_forall. intros m Hm. apply IH; [now apply Hp|]. pose proof (t_pred n m Hl Hm). lia.
Qed.
Lemma pin_rec_of (C : nat -> Prop) st P : (forall n, C n -> live n /\ forall m, In m (preds n) -> C m) ->
  (forall n, C n -> exists s, st n = Some s /\ vn_out (N n) s (map P (preds n)) = Some (P n)) ->
  forall n, C n -> pin_of N g st n = Some (P n).
Proof. intros H1 H2 n Hn. apply (pin_rec C); auto. apply t_range. now apply H1. Qed.
Lemma inputs_rec (C : nat -> Prop) st P : (forall n, C n -> live n /\ forall m, In m (preds n) -> C m) ->
  (forall n, C n -> exists s, st n = Some s /\ vn_out (N n) s (map P (preds n)) = Some (P n)) ->
  forall n, (forall m, In m (preds n) -> C m) -> inputs N g st n = Some (map P (preds n)).
Proof. intros H1 H2 n Hn. unfold inputs. apply all_some_same. apply Forall_forall. intros m Hm. apply (pin_rec_of C); auto. Qed.

(** ** A sweep over a list of nodes closed under successors, in topological order *)
Section Sweep.
Variable ns : list nat.
Hypothesis Nd : NoDup ns.
Hypothesis Lv : forall n, In n ns -> live n.
Hypothesis Up : forall n m, live n -> In m (preds n) -> In m ns -> In n ns.
Hypothesis So : StronglySorted (fun a b => (t a < t b)%Z) ns.
Variable mth : forall n, vn_ST (N n) -> list (pin V) -> res (vn_ST (N n)).
Variable Q : nat -> pin V -> Prop.
Variable pre : forall n, vn_ST (N n) -> Prop.
Variable post : forall n, vn_ST (N n) -> list (pin V) -> pin V -> Prop.
Hypothesis Hm : forall n s P, In n ns -> pre n s -> (forall m, In m (preds n) -> Q m (P m)) ->
  exists s' p, mth n s (map P (preds n)) = Ok s' /\ vn_out (N n) s' (map P (preds n)) = Some p /\ Q n p /\ post n s' (map P (preds n)) p.
Variable st : states N.
Variable P0 : nat -> pin V.
Hypothesis Out : forall n, live n -> ~ In n ns -> exists s, st n = Some s /\ vn_out (N n) s (map P0 (preds n)) = Some (P0 n) /\ Q n (P0 n).
Hypothesis Ins : forall n, In n ns -> exists s, st n = Some s /\ pre n s.

Lemma sweep_prefix l1 l2 : ns = l1 ++ l2 -> exists st' P, rfold (call1 N g mth) st l1 = Ok st' /\
  (forall n, In n l1 -> exists s, st' n = Some s /\ vn_out (N n) s (map P (preds n)) = Some (P n) /\ Q n (P n) /\ post n s (map P (preds n)) (P n)) /\
  (forall n, ~ In n l1 -> st' n = st n /\ P n = P0 n).
Proof.
  revert l2. induction l1 as [|x l1 IH] using rev_ind; intros l2 E; [exists st, P0; split; [reflexivity|]; split; [intros n []|auto]|].
  rewrite <- app_assoc in E. cbn [app] in E. destruct (IH (x :: l2) E) as (st1 & P & E1 & D1 & U1). clear IH.
  assert (Hx : In x ns) by (rewrite E; apply in_or_app; right; now left).
  assert (Nx : ~ In x l1) by (rewrite E in Nd; apply NoDup_remove_2 in Nd; intros H; apply Nd; apply in_or_app; now left).
  set (C := fun n => live n /\ (In n l1 \/ ~ In n ns)).
  assert (Early : forall n m, In n l1 \/ n = x -> In m (preds n) -> In m ns -> In m l1).
  { intros n m Hn Hmn Hmns. assert (Ln : live n) by (destruct Hn as [Hn| ->]; apply Lv; auto; rewrite E; apply in_or_app; now left).
    pose proof (t_pred n m Ln Hmn) as Lt. rewrite E in Hmns. apply in_app_or in Hmns. destruct Hmns as [H|H]; [exact H|exfalso].
    assert (Sx : forall y, In y (x :: l2) -> (t x <= t y)%Z).
    { intros y Hy. rewrite E in So. clear - So Hy. induction l1 as [|z l1 IH]; cbn [app] in So; [|apply IH; now inversion So]. inversion So as [|? ? _ Fa]; subst. destruct Hy as [->|Hy]; [lia|]. rewrite Forall_forall in Fa. specialize (Fa y Hy). lia. }
    assert (Sn : (t n <= t x)%Z).
    { destruct Hn as [Hn| ->]; [|lia]. rewrite E in So. clear - So Hn. induction l1 as [|z l1 IH]; [destruct Hn|]. cbn [app] in So. inversion So as [|? ? S1 Fa]; subst. destruct Hn as [->|Hn]; [|now apply IH].
      rewrite Forall_forall in Fa. assert (t n < t x)%Z by (apply Fa; apply in_or_app; right; now left). lia. }
    specialize (Sx m H). lia. }
  assert (HC : forall n, C n -> live n /\ forall m, In m (preds n) -> C m).
  { intros n [Ln Hn]. split; [exact Ln|]. intros m Hmn. split; [now apply (pred_live n)|]. destruct Hn as [Hn|Hn].
    - destruct (in_dec Nat.eq_dec m ns) as [Hi|Hi]; [left; apply (Early n m); auto|now right].
    - right. intros Hi. apply Hn. now apply (Up n m). }
  assert (HS : forall n, C n -> exists s, st1 n = Some s /\ vn_out (N n) s (map P (preds n)) = Some (P n)).
  { intros n [Ln [Hn|Hn]]; [destruct (D1 n Hn) as (s & A & B & _); eauto|]. destruct (Out n Ln Hn) as (s & A & B & _). exists s.
    assert (Hn1 : ~ In n l1) by (intros H; apply Hn; rewrite E; apply in_or_app; now left). destruct (U1 n Hn1) as [-> ->]. split; [exact A|]. rewrite <- B. f_equal. apply map_ext_in.
    intros m Hmn. apply U1. intros H. apply Hn. apply (Up n m); auto. rewrite E. apply in_or_app. now left. }
  assert (Cx : forall m, In m (preds x) -> C m).
  { intros m Hmx. split; [eapply pred_live; [apply Lv|]; eauto|]. destruct (in_dec Nat.eq_dec m ns) as [Hi|Hi]; [left; apply (Early x m); auto|now right]. }
  pose proof (inputs_rec C st1 P HC HS x Cx) as Ei.
  assert (HQ : forall m, C m -> Q m (P m)).
  { intros m [Lm [Hm'|Hm']]; [now destruct (D1 m Hm') as (s & _ & _ & A & _)|]. destruct (Out m Lm Hm') as (s & _ & _ & A).
    assert (Hm1 : ~ In m l1) by (intros H; apply Hm'; rewrite E; apply in_or_app; now left). now destruct (U1 m Hm1) as [_ ->]. }
  destruct (Ins x Hx) as (s & Es & Ps). destruct (U1 x Nx) as [Ex _]. rewrite Es in Ex.
  destruct (Hm x s P Hx Ps (fun m H => HQ m (Cx m H))) as (s' & p & M1 & M2 & M3 & M4).
  exists (sset N st1 x s'), (fun n => if Nat.eq_dec n x then p else P n). split.
  - assert (Ra : forall A B (f : A -> B -> res A) a l b, rfold f a (l ++ [b]) = match rfold f a l with Ok a' => f a' b | Throw => Throw | UB => UB end).
    { intros A B f a l b. revert a. induction l as [|y l IHl]; intros a; cbn [app rfold]; [destruct (f a b); reflexivity|]. destruct (f a y); auto. }
    rewrite Ra, E1. unfold call1. rewrite Ex, Ei, M1. reflexivity.
  - assert (Mp : forall n, In n l1 \/ n = x -> map (fun k => if Nat.eq_dec k x then p else P k) (preds n) = map P (preds n)).
    { intros n Hn. apply map_ext_in. intros m Hmn. destruct (Nat.eq_dec m x) as [->|]; [|reflexivity]. exfalso. apply Nx. now apply (Early n x). }
    split.
    + intros n Hn. apply in_app_or in Hn. destruct Hn as [Hn|[<-|[]]].
      * assert (n <> x) by congruence. rewrite sset_neq by congruence. rewrite Mp by auto. destruct (Nat.eq_dec n x); [congruence|]. now apply D1.
      * exists s'. rewrite sset_eq, Mp by auto. destruct (Nat.eq_dec x x); [|congruence]. auto.
    + intros n Hn. assert (n <> x) by (intros ->; apply Hn; apply in_or_app; right; now left). rewrite sset_neq by congruence. destruct (Nat.eq_dec n x); [congruence|].
      apply U1. intros H1. apply Hn. apply in_or_app. now left.
Qed.

Lemma sweep : exists st' P, call_all N g mth st ns = Ok st' /\ (forall n, live n -> pin_of N g st' n = Some (P n) /\ Q n (P n)) /\
  (forall n, In n ns -> exists s, st' n = Some s /\ post n s (map P (preds n)) (P n)) /\ (forall n, ~ In n ns -> st' n = st n /\ P n = P0 n).
Proof.
  destruct (sweep_prefix ns [] (eq_sym (app_nil_r ns))) as (st' & P & E & D & U). exists st', P. split; [exact E|].
  assert (HS : forall n, live n -> exists s, st' n = Some s /\ vn_out (N n) s (map P (preds n)) = Some (P n)).
  { intros n Ln. destruct (in_dec Nat.eq_dec n ns) as [Hn|Hn]; [destruct (D n Hn) as (s & A & B & _); eauto|]. destruct (Out n Ln Hn) as (s & A & B & _). exists s.
    destruct (U n Hn) as [-> ->]. split; [exact A|]. rewrite <- B. f_equal. apply map_ext_in. intros m Hmn. apply U. intros H. apply Hn. now apply (Up n m). }
  split; [|split].
  - intros n Ln. split; [apply (pin_rec_of (fun k => live k)); auto; intros k Hk; split; auto; intros m; now apply pred_live|].
    destruct (in_dec Nat.eq_dec n ns) as [Hn|Hn]; [now destruct (D n Hn) as (s & _ & _ & A & _)|]. destruct (Out n Ln Hn) as (s & _ & _ & A). now destruct (U n Hn) as [_ ->].
  - intros n Hn. destruct (D n Hn) as (s & A & _ & _ & B). eauto.
  - exact U.
Qed.
End Sweep.
End P.
