(** The order given by the topological sort: nodes made of decisions only keep their order of creation. *)
From Verif Require Import Base GraphModel GraphSpec GraphProofs GraphProofs2 PyModel FileModel FileSpec FileProofs2.
From Coq Require Import Relations Sorting.Sorted Lia.

(** Made of decisions only. *)
Definition first_level (g : graph) (n : nat) : Prop := forall p, edge g p n -> In p (gdec g).

Section Visit.
Variable succ : list (list nat).
Variable al : list bool.
Variable m : nat.
Variable dec : nat -> Prop.
Hypothesis Hm : forall p, In m (oget succ p) -> nth p al false = true -> dec p.

Definition vok (st : list Z * Z) := forall p, dec p -> (0 <= tkey (fst st) p)%Z.
Lemma visit_keeps fuel : forall n st st', visit succ al fuel n st = Ok st' ->
  (forall x, (0 <= tkey (fst st) x)%Z -> tkey (fst st') x = tkey (fst st) x) /\ (snd st' <= snd st)%Z /\
  length (fst st') = length (fst st) /\
  (vok st -> n <> m -> tkey (fst st') m = tkey (fst st) m).
Proof.
  induction fuel as [|f IH]; intros n [tp c] st' E; cbn [visit fst snd] in *; [discriminate|].
  destruct (nth n al false) eqn:Ea; cbn [negb] in E; [|discriminate].
  destruct (nth_error tp n) as [t|] eqn:Et; [|discriminate].
  assert (Hn : n < length tp) by (apply nth_error_Some; congruence).
  assert (Hk : tkey tp n = t) by (unfold tkey; now apply nth_error_nth).
  destruct (Z.leb_spec 0 t) as [H0|H0].
  { injection E as <-. cbn. repeat split; auto; lia. }
  destruct (t =? -2)%Z; [discriminate|].
  assert (G : forall l st0 st1, (forall y, In y l -> In y (oget succ n)) ->
    rfold (fun st m => visit succ al f m st) st0 l = Ok st1 ->
    (forall x, (0 <= tkey (fst st0) x)%Z -> tkey (fst st1) x = tkey (fst st0) x) /\ (snd st1 <= snd st0)%Z /\
    length (fst st1) = length (fst st0) /\
    (vok st0 -> ~ dec n -> tkey (fst st1) m = tkey (fst st0) m)).
  { induction l as [|y l IHl]; intros st0 st1 Hl E1; cbn [rfold] in E1.
    - injection E1 as <-. repeat split; auto; lia.
    - destruct (visit succ al f y st0) as [st2| |] eqn:E2; try discriminate.
      destruct (IH _ _ _ E2) as (A1 & A2 & A3 & A4).
      destruct (IHl st2 st1) as (B1 & B2 & B3 & B4); [intros z Hz; apply Hl; now right|exact E1|].
      split; [|split; [lia|split; [rewrite ?lset_length; lia|]]].
      + intros x Hx. rewrite <- (A1 x Hx). apply B1. now rewrite (A1 x Hx).
      + intros V N. rewrite B4; auto.
        * apply A4; auto. intros ->. apply N, Hm; auto. apply Hl. now left.
        * intros p Hp. rewrite A1; auto. }
  destruct (rfold _ _ (rev (oget succ n))) as [[tp1 c1]| |] eqn:E1; try discriminate.
  injection E as <-. cbn [fst snd].
  apply G in E1; [|intros y Hy; now apply in_rev]. cbn [fst snd] in E1. destruct E1 as (A1 & A2 & A3 & A4).
  rewrite lset_length in A3.
  split; [|split; [lia|split; [rewrite ?lset_length; lia|]]].
  - intros x Hx. assert (n <> x) by (intros <-; lia).
    rewrite tkey_lset by lia. destruct (Nat.eqb_spec n x); [tauto|].
    rewrite A1; rewrite tkey_lset by lia; destruct (Nat.eqb_spec n x); tauto.
  - intros V N. rewrite tkey_lset by lia. destruct (Nat.eqb_spec n m); [tauto|].
    rewrite A4; [rewrite tkey_lset by lia; destruct (Nat.eqb_spec n m); tauto| |].
    + intros p Hp. cbn [fst]. specialize (V p Hp). cbn [fst] in V. rewrite tkey_lset by lia. destruct (Nat.eqb_spec n p); [subst; lia|auto].
    + intros Hd. specialize (V n Hd). cbn [fst] in V. lia.
Qed.

Lemma rfold_keeps fuel : forall l st st', rfold (fun st m => visit succ al fuel m st) st l = Ok st' ->
  (forall x, (0 <= tkey (fst st) x)%Z -> tkey (fst st') x = tkey (fst st) x) /\ (snd st' <= snd st)%Z /\
  length (fst st') = length (fst st) /\
  (vok st -> ~ In m l -> tkey (fst st') m = tkey (fst st) m).
Proof.
  induction l as [|y l IHl]; intros st st' E; cbn [rfold] in E.
  - injection E as <-. repeat split; auto; lia.
  - destruct (visit succ al fuel y st) as [st2| |] eqn:E2; try discriminate.
    destruct (visit_keeps _ _ _ _ E2) as (A1 & A2 & A3 & A4). destruct (IHl _ _ E) as (B1 & B2 & B3 & B4).
    split; [|split; [lia|split; [rewrite ?lset_length; lia|]]].
    + intros x Hx. rewrite <- (A1 x Hx). apply B1. now rewrite (A1 x Hx).
    + intros V N. rewrite B4; auto.
      * apply A4; auto. intros ->. apply N. now left.
      * intros p Hp. rewrite A1; auto.
      * intros Hi. apply N. now right.
Qed.
End Visit.

(** The node visited gets the number that comes up, unless it has one. *)
Lemma visit_number succ al fuel n tp c tp' c' : visit succ al fuel n (tp, c) = Ok (tp', c') -> tkey tp n = (-1)%Z ->
  (tkey tp' n <= c)%Z /\ (c' < tkey tp' n)%Z.
Proof.
  destruct fuel as [|f]; cbn [visit fst snd]; [discriminate|]. intros E Hk.
  destruct (negb (nth n al false)); [discriminate|].
  destruct (nth_error tp n) as [t|] eqn:Et; [|discriminate].
  assert (Hn : n < length tp) by (apply nth_error_Some; congruence).
  assert (Ht : tkey tp n = t) by (unfold tkey; now apply nth_error_nth).
  destruct (Z.leb_spec 0 t); [lia|]. destruct (t =? -2)%Z; [discriminate|].
  destruct (rfold _ _ (rev (oget succ n))) as [[tp1 c1]| |] eqn:E1; try discriminate.
  injection E as <- <-.
  apply (rfold_keeps succ al n (fun p => In n (oget succ p))) in E1; [|auto]. cbn [fst snd] in E1.
  destruct E1 as (_ & A2 & A3 & _). rewrite lset_length in A3. rewrite tkey_lset by lia. rewrite Nat.eqb_refl. lia.
Qed.

Definition L1 (g : graph) (n : nat) : Prop := ~ In n (gdec g) /\ first_level g n.

Lemma sort_first_level g g' a b : WF g -> gsorted g = false -> topological_sort g = Ok g' ->
  L1 g a -> L1 g b -> before (gnodes g) a b -> before (gnodes g') a b.
Proof.
  intros W Hs E [Ad Al] [Bd Bl] (l1 & l2 & l3 & El).
  pose proof (sort_cases g W Hs) as Hc. rewrite E in Hc. destruct Hc as (bl & tp & Ho).
  pose proof (wf_nd _ W) as Nd. rewrite El in Nd.
  assert (Ia : In a (gnodes g)) by (rewrite El; apply in_app_iff; right; now left).
  assert (Ib : In b (gnodes g)) by (rewrite El; apply in_app_iff; right; right; apply in_app_iff; right; now left).
  assert (K : (tkey (gtopo g') a < tkey (gtopo g') b)%Z).
  { unfold topological_sort in E. rewrite Hs in E.
    destruct (rfold _ _ (rev (gnodes g))) as [[tp' c']| |] eqn:Er; try discriminate. injection E as <-. cbn [gtopo].
    rewrite El in Er. rewrite rev_app_distr in Er. cbn [rev] in Er. rewrite rev_app_distr in Er. cbn [rev] in Er.
    repeat rewrite <- app_assoc in Er. cbn [app] in Er.
    set (f := fun st m => visit (gsucc g) (galive g) (S (length (gtopo g))) m st) in *.
    assert (FL : forall z, first_level g z -> forall p, In z (oget (gsucc g) p) -> nth p (galive g) false = true -> In p (gdec g)).
    { intros z Hz p Hp Hal. apply Hz. apply edge_succ; auto. split; auto. now apply (wf_al _ W). }
    assert (KP := fun z Hz => rfold_keeps (gsucc g) (galive g) z (fun p => In p (gdec g)) (FL z Hz) (S (length (gtopo g)))).
    assert (V0 : forall c, vok (fun p => In p (gdec g)) (gtopo g, c)).
    { intros c p Hp. cbn [fst]. apply In_nth_error in Hp. destruct Hp as [i Hp]. rewrite (wf_dt _ W _ _ Hp). lia. }
    assert (Kb : tkey (gtopo g) b = (-1)%Z) by (apply (wf_u _ W); auto).
    assert (Ka : tkey (gtopo g) a = (-1)%Z) by (apply (wf_u _ W); auto).
    assert (N2 : ~ In b l3 /\ ~ In b l2 /\ ~ In a l3 /\ ~ In a l2 /\ a <> b /\ ~ In b l1 /\ ~ In a l1).
    { apply NoDup_remove in Nd as ND1. destruct ND1 as [ND1 NI1].
      assert (Nd' : NoDup ((l1 ++ a :: l2) ++ b :: l3)) by (rewrite <- app_assoc; exact Nd).
      apply NoDup_remove in Nd'. destruct Nd' as [_ NI2]. repeat rewrite in_app_iff in *. cbn in *.
      repeat split; try tauto; intros ->; tauto. }
    destruct N2 as (n1 & n2 & n3 & n4 & n5 & n6 & n7).
    rewrite rfold_app in Er. fold f in Er.
    destruct (rfold f _ (rev l3)) as [[tp1 c1]| |] eqn:E1; try discriminate. cbn [rfold] in Er.
    destruct (f (tp1, c1) b) as [[tp2 c2]| |] eqn:E2; try discriminate.
    rewrite rfold_app in Er.
    destruct (rfold f (tp2, c2) (rev l2)) as [[tp3 c3]| |] eqn:E3; try discriminate. cbn [rfold] in Er.
    destruct (f (tp3, c3) a) as [[tp4 c4]| |] eqn:E4; try discriminate.
    destruct (KP b Bl _ _ _ E1) as (P1 & P2 & _ & P4). destruct (KP a Al _ _ _ E1) as (_ & _ & _ & Q4).
    cbn [fst snd] in *.
    assert (K1b : tkey tp1 b = (-1)%Z) by (rewrite P4; auto; rewrite <- in_rev; auto).
    assert (K1a : tkey tp1 a = (-1)%Z) by (rewrite Q4; auto; rewrite <- in_rev; auto).
    destruct (visit_number _ _ _ _ _ _ _ _ E2 K1b) as [X1 X2].
    assert (V1 : vok (fun p => In p (gdec g)) (tp1, c1)).
    { intros p Hp. cbn [fst]. pose proof (V0 0%Z p Hp) as Hv. cbn [fst] in Hv. rewrite P1; auto. }
    pose proof (visit_keeps (gsucc g) (galive g) a (fun p => In p (gdec g)) (FL a Al) _ _ _ _ E2) as (R1 & R2 & R3 & R4).
    cbn [fst snd] in *.
    assert (K2a : tkey tp2 a = (-1)%Z) by (rewrite R4; auto).
    assert (V2 : vok (fun p => In p (gdec g)) (tp2, c2)).
    { intros p Hp. cbn [fst]. pose proof (V1 p Hp) as Hv. cbn [fst] in Hv. rewrite R1; auto. }
    destruct (KP a Al _ _ _ E3) as (S1 & S2 & _ & S4). cbn [fst snd] in *.
    assert (K3a : tkey tp3 a = (-1)%Z) by (rewrite S4; auto; rewrite <- in_rev; auto).
    destruct (visit_number _ _ _ _ _ _ _ _ E4 K3a) as [Y1 Y2].
    assert (V3 : vok (fun p => In p (gdec g)) (tp3, c3)).
    { intros p Hp. cbn [fst]. pose proof (V2 p Hp) as Hv. cbn [fst] in Hv. rewrite S1; auto. }
    pose proof (visit_keeps (gsucc g) (galive g) b (fun p => In p (gdec g)) (FL b Bl) _ _ _ _ E4) as (T1 & T2 & T3 & T4).
    cbn [fst snd] in *.
    assert (V4 : vok (fun p => In p (gdec g)) (tp4, c4)).
    { intros p Hp. cbn [fst]. pose proof (V3 p Hp) as Hv. cbn [fst] in Hv. rewrite T1; auto. }
    destruct (KP a Al _ _ _ Er) as (_ & _ & _ & U1). destruct (KP b Bl _ _ _ Er) as (_ & _ & _ & U2).
    destruct (KP b Bl _ _ _ E3) as (_ & _ & _ & U3). cbn [fst snd] in *.
    rewrite U1, U2, T4, U3; auto; try (rewrite <- in_rev; auto). lia. }
  destruct Ho as (Eg & HP & _ & _ & Hk). rewrite Eg in *. cbn [gnodes gtopo with_order] in *.
  apply (Permutation_in _ (Permutation_sym HP)) in Ia. apply In_nth_error in Ia. destruct Ia as [i Hi].
  apply (Permutation_in _ (Permutation_sym HP)) in Ib. apply In_nth_error in Ib. destruct Ib as [j Hj].
  rewrite (Hk _ _ Hi), (Hk _ _ Hj) in K. eapply before_nth; [|exact Hi|exact Hj]. lia.
Qed.

(** In order of creation. *)
Definition level_ordered (g : graph) : Prop :=
  forall a b, In a (gnodes g) -> In b (gnodes g) -> L1 g a -> L1 g b -> a < b -> before (gnodes g) a b.

Lemma before_snoc l a b n : before l a b -> before (l ++ [n]) a b.
Proof. intros (l1 & l2 & l3 & ->). exists l1, l2, (l3 ++ [n]). repeat (rewrite <- app_assoc; cbn). reflexivity. Qed.
Lemma before_last l a n : In a l -> before (l ++ [n]) a n.
Proof. intros H. apply in_split in H. destruct H as (l1 & l2 & ->). exists l1, l2, []. rewrite <- app_assoc. reflexivity. Qed.
Lemma before_filter (f : nat -> bool) l a b : before l a b -> f a = true -> f b = true -> before (filter f l) a b.
Proof.
  intros (l1 & l2 & l3 & ->) Ha Hb. exists (filter f l1), (filter f l2), (filter f l3).
  rewrite filter_app. cbn [filter]. rewrite Ha, filter_app. cbn [filter]. now rewrite Hb.
Qed.

Lemma L1_mono g g' n : (forall d, In d (gdec g) <-> In d (gdec g')) -> (forall p, edge g p n -> edge g' p n) -> L1 g' n -> L1 g n.
Proof. intros Hd He [N F]. split; [now rewrite Hd|]. intros p Hp. apply Hd, F, He, Hp. Qed.

Lemma sort_level g g' : WF g -> level_ordered g -> topological_sort g = Ok g' -> level_ordered g'.
Proof.
  intros W L E a b Ia Ib La Lb Hab. destruct (gsorted g) eqn:Es.
  - unfold topological_sort in E. rewrite Es in E. injection E as <-. auto.
  - pose proof (sort_cases g W Es) as Hc. rewrite E in Hc. destruct Hc as (bl & tp & Ho).
    destruct Ho as (Eg & HP & _). 
    assert (X : forall n, In n (gnodes g') -> L1 g' n -> In n (gnodes g) /\ L1 g n).
    { intros n In_ Ln. rewrite Eg in In_. cbn in In_. apply (Permutation_in _ HP) in In_. split; auto.
      apply (L1_mono g g'); auto; rewrite Eg; cbn; [tauto|]. intros p Hp. now apply edge_perm. }
    destruct (X a Ia La), (X b Ib Lb). eapply sort_first_level; eauto.
Qed.

Lemma emplace_level g d r ps g' : WF g -> level_ordered g -> emplace_node g d r ps = Ok g' -> level_ordered g'.
Proof.
  intros W L E. unfold emplace_node in E. destruct (gsorted g); [discriminate|].
  destruct (negb (forallb (alive g) ps)); [discriminate|]. injection E as <-.
  intros a b Ia Ib La Lb Hab. cbn [gnodes] in *. apply in_app_iff in Ia, Ib. 
  assert (X : forall n, In n (gnodes g) -> n < length (gpred g)) by (intros; now apply alive_lt).
  destruct Ib as [Ib|[<-|[]]].
  - destruct Ia as [Ia|[<-|[]]]; [|specialize (X b Ib); lia]. apply before_snoc, L; auto.
    + destruct La as [N F]. cbn [gdec] in N. split.
      * intros Hd. apply N. destruct d; auto. apply in_app_iff; auto.
      * intros p [Hp1 Hp2]. assert (Hq : In p (gdec g) \/ p = length (gpred g)).
        { assert (Hf : In p (if d then gdec g ++ [length (gpred g)] else gdec g)).
          { apply F. split; cbn [gnodes gpred]; [apply in_app_iff; auto|]. rewrite oget_snoc. destruct (Nat.eqb_spec a (length (gpred g))); [specialize (X a Hp1); lia|]. auto. }
          destruct d; auto. apply in_app_iff in Hf. destruct Hf as [Hf|[Hf|[]]]; auto. }
        destruct Hq as [Hq|Hq]; auto. exfalso. destruct (wf_link _ W) as (_ & _ & Hl). specialize (Hl p a Hp1 Hp2). specialize (X p Hl). lia.
    + destruct Lb as [N F]. cbn [gdec] in N. split.
      * intros Hd. apply N. destruct d; auto. apply in_app_iff; auto.
      * intros p [Hp1 Hp2]. assert (Hq : In p (gdec g) \/ p = length (gpred g)).
        { assert (Hf : In p (if d then gdec g ++ [length (gpred g)] else gdec g)).
          { apply F. split; cbn [gnodes gpred]; [apply in_app_iff; auto|]. rewrite oget_snoc. destruct (Nat.eqb_spec b (length (gpred g))); [specialize (X b Hp1); lia|]. auto. }
          destruct d; auto. apply in_app_iff in Hf. destruct Hf as [Hf|[Hf|[]]]; auto. }
        destruct Hq as [Hq|Hq]; auto. exfalso. destruct (wf_link _ W) as (_ & _ & Hl). specialize (Hl p b Hp1 Hp2). specialize (X p Hl). lia.
  - destruct Ia as [Ia|[<-|[]]]; [|lia]. now apply before_last.
Qed.

Lemma step_level g o g' : WF g -> level_ordered g -> g_step g o = Ok g' -> level_ordered g'.
Proof.
  intros W L. destruct o; cbn [g_step].
  - now apply emplace_level.
  - now apply emplace_level.
  - unfold GraphModel.add_node. destruct (negb (alive g n && alive g p)) eqn:Eal; [discriminate|]. destruct (existsb _ _); [discriminate|].
    cbn zeta. match goal with |- (if ?c then _ else _) = _ -> _ => destruct c; [discriminate|] end. intros E. injection E as <-.
    apply negb_false_iff, andb_true_iff in Eal. destruct Eal as [An Ap]. apply (wf_al _ W) in An.
    intros a b Ia Ib La Lb Hab. cbn [gnodes] in *. apply L; auto.
    all: (eapply L1_mono; [| |eassumption]; cbn [gdec]; [tauto|]; intros q [Hq1 Hq2]; split; auto; cbn [gpred]).
    all: (unfold oget; rewrite nth_lset by (now apply alive_lt); match goal with |- context [(?y =? ?z)%nat] => destruct (Nat.eqb_spec y z) as [->|]; auto end; apply in_app_iff; auto).
  - now apply sort_level.
  - intros E. injection E as <-. unfold reset_topological_sort. destruct (negb (gsorted g)); auto.
  - pose proof (remove_cases g ignore_listeners W) as Hc. destruct (topological_sort g) as [gs| |] eqn:Es; [|rewrite Hc; discriminate|destruct Hc].
    destruct Hc as (g1 & R & -> & HR). intros E. injection E as <-.
    pose proof (sort_level g gs W L Es) as Ls.
    intros a b Ia Ib La Lb Hab. pose proof (rm_nodes _ _ _ _ HR) as Hn.
    rewrite Hn in Ia, Ib |- *. apply filter_In in Ia, Ib.
    apply before_filter; try tauto. apply Ls; try tauto.
    all: (eapply L1_mono; [| |eassumption]; [intros; now rewrite (rm_dec _ _ _ _ HR)|]; intros p [Hp1 Hp2]; split;
      [rewrite Hn; apply filter_In; tauto|now rewrite (rm_pred _ _ _ _ HR)]).
  - unfold GraphModel.set_objective. destruct (alive g n); [|discriminate]. intros E. injection E as <-. exact L.
  - unfold GraphModel.add_constraint. destruct (alive g n); [|discriminate]. intros E. injection E as <-. exact L.
  - unfold GraphModel.set_listen. destruct (alive g n); [|discriminate]. intros E. injection E as <-. exact L.
Qed.

Lemma history_level ops g : history ops = Ok g -> level_ordered g.
Proof.
  intros E. apply (rfold_inv g_step (fun g => WF g /\ level_ordered g) (fun _ => True) ops g_empty g); auto.
  - intros a b a' [W L] _ Es. split; [eapply step_WF|eapply step_level]; eauto.
  - split; [apply empty_WF|]. intros a b [].
Qed.

(** The order of the nodes of a sorted model is one of those of [legal]. *)
Lemma legal_nodes g g' m : WF g -> gsorted g = false -> level_ordered g -> topological_sort g = Ok g' -> graph_of m g -> inv m ->
  legal m (gnodes g').
Proof.
  intros W Us L E [Gn Gp Gd] Im.
  assert (W' := sort_WF g g' W E). assert (L' := sort_level g g' W L E).
  assert (Hs : gsorted g' = true /\ Permutation (gnodes g') (gnodes g) /\ gdec g' = gdec g /\ gpred g' = gpred g /\ acyclic g').
  { pose proof (sort_cases g W Us) as Hc. rewrite E in Hc. destruct Hc as (bl & tp & Ho).
    pose proof (order_acyclic g W Us g' bl tp Ho) as Ha. destruct Ho as (Eg & HP & _).
    assert (Ha' : acyclic g').
    { intros n Hn. apply (Ha n). revert Hn. generalize n at 1 3. generalize n. intros u v Huv. rewrite Eg in Huv.
      induction Huv as [u v Huv|u v w _ IH1 _ IH2]; [constructor; now apply edge_perm in Huv|eapply t_trans; eauto]. }
    split; [|split; [|split; [|split]]]; auto; rewrite Eg; auto. }
  destruct Hs as (Hs & HP & Hd & Hq & Ha).
  assert (In_ : forall x s, nth_error (p_syms m) x = Some s -> In x (gnodes g')).
  { intros x s Hx. rewrite HP, Gn. apply in_seq. cbn. split; [lia|]. apply nth_error_Some. congruence. }
  destruct (wf_s _ W' Hs) as ((rest & Er) & Hk & He).
  constructor.
  - now rewrite HP, Gn.
  - intros x s p Hx Hp.
    assert (Ed : edge g' p x) by (split; [eauto|rewrite Hq, (Gp _ _ Hx); auto]).
    pose proof (edge_in g' p x W' Ed) as [I1 I2]. apply In_nth_error in I1, I2. destruct I1 as [i Hi], I2 as [j Hj].
    specialize (He p x Ed). rewrite (Hk _ _ Hi), (Hk _ _ Hj) in He.
    assert (i <> j). { intros ->. assert (p = x) by congruence. subst. apply (Ha x). now constructor. }
    eapply before_nth; [|exact Hi|exact Hj]. lia.
  - intros x s y t Hx Hy Dx Dy. apply (Gd _ _ Hx) in Dx.
    assert (Iy : In y rest).
    { pose proof (In_ _ _ Hy) as Iy. rewrite Er, Hd in Iy. apply in_app_iff in Iy. destruct Iy as [Iy|]; auto. apply (Gd _ _ Hy) in Iy. congruence. }
    rewrite Er, Hd. apply in_split in Dx, Iy. destruct Dx as (a1 & a2 & ->), Iy as (b1 & b2 & ->).
    exists a1, (a2 ++ b1), b2. repeat (rewrite <- app_assoc; cbn). reflexivity.
  - intros x s y t main i j Hx Hy Px Py Hij.
    assert (X : forall z u k, nth_error (p_syms m) z = Some u -> part_of (s_cls u) = Some (main, k) -> L1 g' z /\ z = (main + S k)%nat).
    { intros z u k Hz Pz. destruct Im as (F & _ & _). pose proof (F _ _ Hz) as Fz. unfold fine in Fz.
      destruct (s_cls u) eqn:Ec; try discriminate Pz; cbn in Pz; injection Pz as <- <-.
      - destruct Fz as (P1 & _ & _ & _ & P2 & t0 & T1 & T2). split; auto. split.
        + rewrite Hd, (Gd _ _ Hz), Ec. discriminate.
        + intros p [_ Hp]. rewrite Hq, (Gp _ _ Hz), P1 in Hp. destruct Hp as [<-|[]]. rewrite Hd, (Gd _ _ T1), T2. reflexivity.
      - destruct Fz as (P1 & _ & _ & _ & P2 & t0 & T1 & T2). split; auto. split.
        + rewrite Hd, (Gd _ _ Hz), Ec. discriminate.
        + intros p [_ Hp]. rewrite Hq, (Gp _ _ Hz), P1 in Hp. destruct Hp as [<-|[]]. rewrite Hd, (Gd _ _ T1), T2. reflexivity. }
    destruct (X _ _ _ Hx Px) as [Lx ->], (X _ _ _ Hy Py) as [Ly ->]. apply L'; eauto. lia.
Qed.
