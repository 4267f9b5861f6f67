(** Proofs about the graph model. *)
From Verif Require Import Base GraphModel GraphSpec.
From Coq Require Import Relations Sorting.Sorted.

(** ** Depth-first search *)
Section Dfs.
Variable succ : list (list nat).
Variable al : list bool.
Variable tp0 : list Z.          (* initial indices *)
Variable W : list nat.          (* nodes to be numbered *)
Variable N1 : Z.                (* first number given *)

Definition isal n := nth n al false = true.
Hypothesis Hlt : forall n, isal n -> n < length tp0.
Hypothesis Hsucc : forall n m, isal n -> In m (oget succ n) -> In m W.
Hypothesis HW : forall n, In n W <-> isal n /\ tkey tp0 n = (-1)%Z.
Hypothesis Hnn : forall n, isal n -> tkey tp0 n = (-1)%Z \/ (0 <= tkey tp0 n)%Z.
Hypothesis HN : (Z.of_nat (length W) <= N1 + 1)%Z.

Inductive TL : list nat -> Prop :=
| TL_nil : TL []
| TL_cons n B : incl (oget succ n) B -> TL B -> TL (n :: B).

Inductive chain : list nat -> Prop :=
| ch_nil : chain []
| ch_one n : chain [n]
| ch_cons n m l : In n (oget succ m) -> chain (m :: l) -> chain (n :: m :: l).

Record DI (tp : list Z) (c : Z) (bl path : list nat) : Prop := {
  di_len : length tp = length tp0;
  di_c : c = (N1 - Z.of_nat (length bl))%Z;
  di_nd : NoDup (path ++ bl);
  di_W : incl (path ++ bl) W;
  di_bl : forall i n, nth_error bl i = Some n -> tkey tp n = (c + 1 + Z.of_nat i)%Z;
  di_path : forall n, In n path -> tkey tp n = (-2)%Z;
  di_rest : forall n, ~ In n bl -> ~ In n path -> tkey tp n = tkey tp0 n;
  di_TL : TL bl;
  di_chain : chain path }.

Lemma tkey_lset tp n z m : n < length tp -> tkey (lset n z tp) m = if n =? m then z else tkey tp m.
Proof.
  intros H. unfold tkey.
  destruct (Nat.eqb_spec n m) as [-> | Hn].
  - apply nth_error_nth. now apply nth_error_lset_eq.
  - destruct (nth_error tp m) as [x|] eqn:E.
    + rewrite (nth_error_nth tp m (-1)%Z E). apply nth_error_nth. now rewrite nth_error_lset_neq.
    + apply nth_error_None in E. rewrite !nth_overflow; auto. now rewrite lset_length.
Qed.

Lemma NoDup_incl_len (l : list nat) : NoDup l -> incl l W -> length l <= length W.
Proof. apply NoDup_incl_length. Qed.

Definition sedge (p n : nat) : Prop := isal p /\ In n (oget succ p).

Lemma chain_reach l : chain l -> (forall x, In x l -> isal x) ->
  forall h t, l = h :: t -> forall x, In x l -> clos_refl_trans nat sedge x h.
Proof.
  induction 1 as [|n|n m l Hin Hc IH]; intros Hal h t E x Hx; try discriminate.
  - injection E as <- <-. destruct Hx as [<- | []]. apply rt_refl.
  - injection E as <- <-. destruct Hx as [<- | Hx]; [apply rt_refl|].
    apply rt_trans with m.
    + apply (IH (fun x Hx => Hal x (or_intror Hx)) m l eq_refl x Hx).
    + apply rt_step. split; auto. apply Hal; right; left; auto.
Qed.

Lemma rt_t (R : nat -> nat -> Prop) a b c : clos_refl_trans nat R a b -> R b c -> clos_trans nat R a c.
Proof.
  intros H1 H2. apply clos_rt_rt1n in H1. induction H1 as [|x y z Hxy H1 IH]; [now apply t_step|].
  apply t_trans with y; [now apply t_step|auto].
Qed.

Lemma isal_W n : In n W -> isal n. Proof. now intros [H _] % HW. Qed.

Lemma DI_hi tp c bl path n : DI tp c bl path -> In n bl -> (0 <= tkey tp n)%Z.
Proof.
  intros H Hn. destruct (In_nth_error _ _ Hn) as [i Hi].
  rewrite (di_bl _ _ _ _ H i n Hi), (di_c _ _ _ _ H).
  assert (Hb : length (path ++ bl) <= length W).
  { apply NoDup_incl_len; [apply (di_nd _ _ _ _ H)|apply (di_W _ _ _ _ H)]. }
  rewrite app_length in Hb. lia.
Qed.

Definition vspec (fuel : nat) : Prop := forall n tp c bl path,
  DI tp c bl path -> isal n -> (path = [] \/ exists h t, path = h :: t /\ In n (oget succ h)) ->
  length W < fuel + length path ->
  match visit succ al fuel n (tp, c) with
  | Ok (tp', c') => exists ext, DI tp' c' (ext ++ bl) path /\ (In n W -> In n (ext ++ bl))
  | Throw => exists x, clos_trans nat sedge x x
  | UB => False
  end.

Lemma rfold_visit fuel (IH : vspec fuel) : forall l h path tp c bl,
  DI tp c bl (h :: path) -> incl l (oget succ h) -> length W < fuel + S (length path) ->
  match rfold (fun st m => visit succ al fuel m st) (tp, c) l with
  | Ok (tp', c') => exists ext, DI tp' c' (ext ++ bl) (h :: path) /\ incl l (ext ++ bl)
  | Throw => exists x, clos_trans nat sedge x x
  | UB => False
  end.
Proof.
  induction l as [|m l IHl]; intros h path tp c bl HD Hi Hf; cbn [rfold].
  - exists []. split; auto. intros x [].
  - assert (Hh : In h W) by (apply (di_W _ _ _ _ HD); left; auto).
    assert (Hm : In m W) by (apply (Hsucc h); [now apply isal_W|apply Hi; left; auto]).
    pose proof (IH m tp c bl (h :: path) HD (isal_W _ Hm)) as IHm.
    destruct (visit succ al fuel m (tp, c)) as [[tp1 c1]| |].
    + destruct IHm as [e1 [HD1 Hin1]]; [right; exists h, path; split; auto; apply Hi; left; auto|cbn; lia|].
      pose proof (IHl h path tp1 c1 (e1 ++ bl) HD1 (fun x Hx => Hi x (or_intror Hx)) Hf) as IHl'.
      destruct (rfold _ (tp1, c1) l) as [[tp2 c2]| |]; auto.
      destruct IHl' as [e2 [HD2 Hin2]]. exists (e2 ++ e1). rewrite <- app_assoc. split; auto.
      intros x [<- | Hx]; auto. apply in_or_app; right; auto.
    + apply IHm; [right; exists h, path; split; auto; apply Hi; left; auto|cbn; lia].
    + apply IHm; [right; exists h, path; split; auto; apply Hi; left; auto|cbn; lia].
Qed.

Lemma visit_spec fuel : vspec fuel.
Proof.
  induction fuel as [|fuel IH]; intros n tp c bl path HD Hal Hhd Hf.
  { exfalso. assert (length (path ++ bl) <= length W).
    { apply NoDup_incl_len; [apply (di_nd _ _ _ _ HD)|apply (di_W _ _ _ _ HD)]. }
    rewrite app_length in H. cbn in Hf. lia. }
  cbn [visit fst snd]. unfold isal in Hal. rewrite Hal. cbn [negb].
  assert (Hn : n < length tp) by (rewrite (di_len _ _ _ _ HD); auto).
  destruct (nth_error_get _ Hn) as [t Ht]. rewrite Ht.
  assert (Htk : tkey tp n = t) by (unfold tkey; now apply nth_error_nth).
  destruct (Z.leb_spec 0 t) as [H0 | H0].
  { exists []. split; auto. intros HnW. cbn.
    destruct (in_dec Nat.eq_dec n bl) as [Hb|Hb]; auto.
    destruct (in_dec Nat.eq_dec n path) as [Hp|Hp].
    - pose proof (di_path _ _ _ _ HD n Hp). lia.
    - pose proof (di_rest _ _ _ _ HD n Hb Hp). apply HW in HnW. lia. }
  destruct (Z.eqb_spec t (-2)) as [H2 | H2].
  { assert (Hp : In n path).
    { destruct (in_dec Nat.eq_dec n path) as [Hp|Hp]; auto. exfalso.
      destruct (in_dec Nat.eq_dec n bl) as [Hb|Hb].
      - pose proof (DI_hi _ _ _ _ _ HD Hb). lia.
      - pose proof (di_rest _ _ _ _ HD n Hb Hp). destruct (Hnn n Hal); lia. }
    destruct Hhd as [-> | [h [t' [-> Hh]]]]; [destruct Hp|].
    exists n. apply rt_t with h.
    - apply (chain_reach (h :: t') (di_chain _ _ _ _ HD)) with (t := t'); auto.
      intros x Hx. apply isal_W. apply (di_W _ _ _ _ HD). apply in_or_app; auto.
    - split; auto. apply isal_W. apply (di_W _ _ _ _ HD). left; auto. }
  assert (Hnb : ~ In n bl) by (intros Hb; pose proof (DI_hi _ _ _ _ _ HD Hb); lia).
  assert (Hnp : ~ In n path) by (intros Hp; pose proof (di_path _ _ _ _ HD n Hp); lia).
  assert (HnW : In n W).
  { apply HW. split; auto. pose proof (di_rest _ _ _ _ HD n Hnb Hnp). destruct (Hnn n Hal); auto; lia. }
  assert (HD' : DI (lset n (-2)%Z tp) c bl (n :: path)).
  { constructor.
    - rewrite lset_length. apply HD.
    - apply HD.
    - cbn. constructor; [|apply HD]. rewrite in_app_iff; tauto.
    - intros x [<- | Hx]; auto. apply (di_W _ _ _ _ HD); auto.
    - intros i m Hm. rewrite tkey_lset by auto. destruct (Nat.eqb_spec n m) as [-> | _].
      + exfalso; apply Hnb. eapply nth_error_In; eauto.
      + apply HD; auto.
    - intros m Hm. rewrite tkey_lset by auto. destruct (Nat.eqb_spec n m) as [-> | Hne]; auto.
      destruct Hm as [-> | Hm]; [congruence|]. apply HD; auto.
    - intros m Hm Hm'. rewrite tkey_lset by auto. destruct (Nat.eqb_spec n m) as [-> | Hne].
      + exfalso; apply Hm'; left; auto.
      + apply HD; auto. intros Hx; apply Hm'; right; auto.
    - apply HD.
    - destruct Hhd as [-> | [h [t' [-> Hh]]]]; [apply ch_one|]. apply ch_cons; auto. apply HD. }
  pose proof (rfold_visit fuel IH (rev (oget succ n)) n path (lset n (-2)%Z tp) c bl HD') as Hr.
  destruct (rfold _ (lset n (-2)%Z tp, c) (rev (oget succ n))) as [[tp' c']| |].
  - destruct Hr as [ext [HD1 Hin]].
    { intros x Hx. now apply in_rev. } { lia. }
    exists (n :: ext). split; [|intros _; left; auto].
    assert (Hn' : n < length tp') by (rewrite (di_len _ _ _ _ HD1), <- (di_len _ _ _ _ HD); auto).
    pose proof (di_nd _ _ _ _ HD1) as Hnd. cbn in Hnd. inversion Hnd as [|? ? Hni Hnd2]; subst.
    rewrite in_app_iff in Hni.
    constructor.
    + rewrite lset_length. apply HD1.
    + rewrite (di_c _ _ _ _ HD1). cbn [length app]. lia.
    + apply NoDup_Add with (a := n) (l := path ++ ext ++ bl).
      { apply Add_app. } split; auto. rewrite in_app_iff; tauto.
    + intros x Hx. apply (di_W _ _ _ _ HD1). cbn. rewrite in_app_iff in *. cbn in Hx. tauto.
    + intros [|i] m Hm; cbn in Hm.
      * injection Hm as <-. rewrite tkey_lset by auto. rewrite Nat.eqb_refl. lia.
      * rewrite tkey_lset by auto. destruct (Nat.eqb_spec n m) as [-> | Hne].
        -- exfalso. apply Hni. right. eapply nth_error_In; eauto.
        -- rewrite (di_bl _ _ _ _ HD1 i m Hm). lia.
    + intros m Hm. rewrite tkey_lset by auto. destruct (Nat.eqb_spec n m) as [-> | Hne]; [tauto|].
      apply (di_path _ _ _ _ HD1). right; auto.
    + intros m Hm Hm'. rewrite tkey_lset by auto. destruct (Nat.eqb_spec n m) as [-> | Hne].
      * exfalso; apply Hm; left; auto.
      * apply (di_rest _ _ _ _ HD1); [intros Hx; apply Hm; right; auto|]. intros [-> | Hx]; auto.
    + cbn. constructor; [|apply HD1]. intros x Hx. apply Hin. now apply -> in_rev.
    + apply HD.
  - apply Hr. { intros x Hx. now apply in_rev. } lia.
  - apply Hr. { intros x Hx. now apply in_rev. } lia.
Qed.

(** All nodes visited in order. *)
Lemma rfold_visit_top fuel : length W < fuel -> forall l tp c bl,
  DI tp c bl [] -> (forall n, In n l -> isal n) ->
  match rfold (fun st m => visit succ al fuel m st) (tp, c) l with
  | Ok (tp', c') => exists ext, DI tp' c' (ext ++ bl) [] /\ (forall n, In n l -> In n W -> In n (ext ++ bl))
  | Throw => exists x, clos_trans nat sedge x x
  | UB => False
  end.
Proof.
  intros Hf. induction l as [|m l IHl]; intros tp c bl HD Hal; cbn [rfold].
  - exists []. split; auto. intros x [].
  - pose proof (visit_spec fuel m tp c bl [] HD (Hal m (or_introl eq_refl)) (or_introl eq_refl)) as Hv.
    destruct (visit succ al fuel m (tp, c)) as [[tp1 c1]| |].
    + destruct Hv as [e1 [HD1 Hin1]]; [cbn; lia|].
      pose proof (IHl tp1 c1 (e1 ++ bl) HD1 (fun x Hx => Hal x (or_intror Hx))) as IHl'.
      destruct (rfold _ (tp1, c1) l) as [[tp2 c2]| |]; auto.
      destruct IHl' as [e2 [HD2 Hin2]]. exists (e2 ++ e1). rewrite <- app_assoc. split; auto.
      intros x [<- | Hx] HxW; auto. apply in_or_app; right; auto.
    + apply Hv; cbn; lia.
    + apply Hv; cbn; lia.
Qed.

Lemma DI_start : length tp0 = length tp0 -> DI tp0 N1 [] [].
Proof.
  intros _. constructor; cbn; auto; try (intros; tauto); try constructor.
  - lia.
  - intros x [].
  - intros [|i] n H; discriminate.
Qed.

(** Visiting nodes whose successors are all numbered. *)
Lemma visit_done fuel tp c n : isal n -> n < length tp -> (0 <= tkey tp n)%Z ->
  visit succ al (S fuel) n (tp, c) = Ok (tp, c).
Proof.
  intros Hal Hn H. cbn [visit fst snd]. unfold isal in Hal. rewrite Hal. cbn [negb].
  destruct (nth_error_get _ Hn) as [t Ht]. rewrite Ht.
  assert (Htk : tkey tp n = t) by (unfold tkey; now apply nth_error_nth).
  destruct (Z.leb_spec 0 t); auto; lia.
Qed.

Lemma rfold_visit_done fuel tp c l : (forall m, In m l -> isal m /\ m < length tp /\ (0 <= tkey tp m)%Z) ->
  rfold (fun st m => visit succ al (S fuel) m st) (tp, c) l = Ok (tp, c).
Proof.
  induction l as [|m l IH]; intros H; cbn [rfold]; auto.
  destruct (H m (or_introl eq_refl)) as [H1 [H2 H3]]. rewrite visit_done by auto.
  apply IH. intros x Hx; apply H; right; auto.
Qed.

Lemma visit_order fuel tp c bl n : DI tp c bl [] -> In n W -> ~ In n bl -> incl (oget succ n) bl ->
  visit succ al (S (S fuel)) n (tp, c) = Ok (lset n c tp, (c - 1)%Z) /\
  DI (lset n c tp) (c - 1) (n :: bl) [].
Proof.
  intros HD HnW Hnb Hi.
  pose proof (isal_W _ HnW) as Hal.
  assert (Hn : n < length tp) by (rewrite (di_len _ _ _ _ HD); auto).
  assert (Htk : tkey tp n = (-1)%Z).
  { rewrite (di_rest _ _ _ _ HD n Hnb (fun x => x)). now apply HW in HnW. }
  assert (Hnotin : forall m, In m (oget succ n) -> n <> m) by (intros m Hm ->; auto).
  split.
  - change (visit succ al (S (S fuel)) n (tp, c)) with
      (if negb (nth n al false) then UB else
       match nth_error tp n with
       | None => UB
       | Some t =>
          if (0 <=? t)%Z then Ok (tp, c)
          else if (t =? -2)%Z then Throw
          else match rfold (fun st m => visit succ al (S fuel) m st)
                           (lset n (-2)%Z tp, c) (rev (oget succ n)) with
               | Ok (tp, c) => Ok (lset n c tp, (c - 1)%Z)
               | Throw => Throw
               | UB => UB
               end
       end).
    unfold isal in Hal. rewrite Hal. cbn [negb].
    destruct (nth_error_get _ Hn) as [t Ht]. rewrite Ht.
    assert (Htk' : tkey tp n = t) by (unfold tkey; now apply nth_error_nth).
    rewrite Htk in Htk'. subst t. cbn [Z.leb Z.compare Z.eqb].
    rewrite rfold_visit_done.
    + now rewrite lset_lset.
    + intros m Hm. apply in_rev in Hm. rewrite lset_length.
      assert (HmW : In m W) by (apply (Hsucc n); auto).
      split; [now apply isal_W|]. split; [rewrite (di_len _ _ _ _ HD); apply Hlt; now apply isal_W|].
      rewrite tkey_lset by auto. destruct (Nat.eqb_spec n m) as [E | _]; [exfalso; now apply (Hnotin m)|].
      apply (DI_hi _ _ _ _ _ HD). auto.
  - constructor.
    + rewrite lset_length. apply HD.
    + rewrite (di_c _ _ _ _ HD). cbn [length app]. lia.
    + cbn. constructor; auto. apply HD.
    + intros x [<- | Hx]; auto. apply (di_W _ _ _ _ HD); auto.
    + intros [|i] m Hm; cbn in Hm.
      * injection Hm as <-. rewrite tkey_lset by auto. rewrite Nat.eqb_refl. lia.
      * rewrite tkey_lset by auto. destruct (Nat.eqb_spec n m) as [-> | Hne].
        -- exfalso. apply Hnb. eapply nth_error_In; eauto.
        -- rewrite (di_bl _ _ _ _ HD i m Hm). lia.
    + intros m [].
    + intros m Hm Hm'. rewrite tkey_lset by auto. destruct (Nat.eqb_spec n m) as [-> | Hne].
      * exfalso; apply Hm; left; auto.
      * apply (di_rest _ _ _ _ HD); [intros Hx; apply Hm; right; auto|]. auto.
    + constructor; auto. apply HD.
    + constructor.
Qed.

(** Already in order: [l] contains, besides numbered nodes, [w] in topological order. *)
Lemma rfold_visit_ordered fuel : forall l tp c bl,
  DI tp c bl [] -> (forall n, In n l -> isal n) -> NoDup l ->
  (forall n, In n l -> ~ In n bl) ->
  TL (filter (fun n => (tkey tp0 n =? -1)%Z) (rev l) ++ bl) ->
  exists tp' c', rfold (fun st m => visit succ al (S (S fuel)) m st) (tp, c) l = Ok (tp', c') /\
    DI tp' c' (filter (fun n => (tkey tp0 n =? -1)%Z) (rev l) ++ bl) [].
Proof.
  induction l as [|n l IH]; intros tp c bl HD Hal Hnd Hnb HT.
  - cbn. eauto.
  - cbn [rev] in HT. rewrite filter_app in HT. cbn [filter] in HT.
    inversion Hnd as [|? ? Hni Hnd']; subst.
    assert (Haln := Hal n (or_introl eq_refl)).
    assert (Hn : n < length tp) by (rewrite (di_len _ _ _ _ HD); auto).
    cbn [rev rfold]. rewrite filter_app. cbn [filter].
    destruct (Z.eqb_spec (tkey tp0 n) (-1)) as [E | E].
    + assert (HnW : In n W) by (apply HW; auto).
      assert (Hi : incl (oget succ n) bl).
      { rewrite <- app_assoc in HT. cbn in HT. clear - HT. induction (filter _ (rev l)) as [|x t IH].
        - inversion HT; auto. - apply IH. inversion HT; auto. }
      destruct (visit_order fuel tp c bl n HD HnW (Hnb n (or_introl eq_refl)) Hi) as [-> HD'].
      destruct (IH _ _ (n :: bl) HD') as [tp' [c' [E1 HD1]]].
      * intros x Hx; apply Hal; right; auto.
      * auto.
      * intros x Hx [-> | Hb]; auto. apply (Hnb x); auto. right; auto.
      * rewrite <- app_assoc in HT. exact HT.
      * exists tp', c'. split; auto. now rewrite <- app_assoc.
    + rewrite visit_done; auto.
      * rewrite !app_nil_r in *. apply IH; auto.
        -- intros x Hx; apply Hal; right; auto.
        -- intros x Hx; apply Hnb; right; auto.
      * rewrite (di_rest _ _ _ _ HD n (Hnb n (or_introl eq_refl)) (fun x => x)).
        destruct (Hnn n Haln); auto; lia.
Qed.
End Dfs.

(** ** Sorting by index *)
Lemma tinsert_perm tp n l : Permutation (n :: l) (tinsert tp n l).
Proof.
  induction l as [|m r IH]; cbn; auto. destruct (_ <=? _)%Z; auto.
  rewrite perm_swap. now constructor.
Qed.

Lemma tsort_perm_aux tp l acc : Permutation (l ++ acc) (fold_left (fun acc n => tinsert tp n acc) l acc).
Proof.
  revert acc; induction l as [|n l IH]; intros acc; cbn; auto.
  rewrite <- IH, <- tinsert_perm. apply Permutation_middle.
Qed.
Lemma tsort_perm tp l : Permutation l (tsort tp l).
Proof. unfold tsort. rewrite <- tsort_perm_aux. now rewrite app_nil_r. Qed.

Definition tle (tp : list Z) (a b : nat) : Prop := (tkey tp a <= tkey tp b)%Z.
Definition tlt (tp : list Z) (a b : nat) : Prop := (tkey tp a < tkey tp b)%Z.

Lemma tinsert_sorted tp n l : StronglySorted (tle tp) l -> StronglySorted (tle tp) (tinsert tp n l).
Proof.
  induction 1 as [|m r Hs IH Hf]; cbn.
  - repeat constructor.
  - destruct (Z.leb_spec (tkey tp m) (tkey tp n)) as [H|H].
    + constructor; auto. apply Forall_forall. intros x Hx.
      apply (Permutation_in x (Permutation_sym (tinsert_perm tp n r))) in Hx.
      destruct Hx as [<- | Hx]; auto. rewrite Forall_forall in Hf; auto.
    + constructor; [constructor; auto|]. constructor; [unfold tle; lia|].
      eapply Forall_impl; [|exact Hf]. unfold tle; intros; lia.
Qed.
Lemma tsort_sorted tp l : StronglySorted (tle tp) (tsort tp l).
Proof.
  unfold tsort. assert (H : StronglySorted (tle tp) []) by constructor. revert H.
  generalize (@nil nat). induction l as [|n l IH]; intros acc H; cbn; auto.
  apply IH. now apply tinsert_sorted.
Qed.

Lemma sorted_unique tp l l' : Permutation l l' -> StronglySorted (tle tp) l ->
  StronglySorted (tlt tp) l' -> l = l'.
Proof.
  revert l'; induction l as [|a l IH]; intros l' HP Hs Hs'.
  - now apply Permutation_nil in HP.
  - destruct l' as [|b l']; [symmetry in HP; now apply Permutation_nil in HP|].
    inversion Hs as [|? ? Hs1 Hf]; subst. inversion Hs' as [|? ? Hs1' Hf']; subst.
    rewrite Forall_forall in Hf, Hf'.
    assert (a = b).
    { assert (Ha : In a (b :: l')) by (eapply Permutation_in; [exact HP|left; auto]).
      assert (Hb : In b (a :: l)) by (eapply Permutation_in; [symmetry; exact HP|left; auto]).
      destruct Ha as [E | Ha]; auto. destruct Hb as [E | Hb]; auto.
      specialize (Hf _ Hb). specialize (Hf' _ Ha). unfold tle, tlt in *. lia. }
    subst b. f_equal. apply IH; auto. now apply Permutation_cons_inv in HP.
Qed.

Lemma keys_sorted tp l k : (forall i n, nth_error l i = Some n -> tkey tp n = Z.of_nat (k + i)) ->
  StronglySorted (tlt tp) l.
Proof.
  revert k; induction l as [|a l IH]; intros k H; constructor.
  - apply (IH (S k)). intros i n Hi. rewrite (H (S i) n Hi). f_equal; lia.
  - apply Forall_forall. intros x Hx. destruct (In_nth_error _ _ Hx) as [i Hi].
    unfold tlt. rewrite (H 0 a eq_refl), (H (S i) x Hi). lia.
Qed.

(** ** Well-formed graphs *)
Record WF (g : graph) : Prop := {
  wf_ls : length (gsucc g) = length (gpred g);
  wf_lt : length (gtopo g) = length (gpred g);
  wf_la : length (galive g) = length (gpred g);
  wf_ll : length (glisten g) = length (gpred g);
  wf_lr : length (gremov g) = length (gpred g);
  wf_nd : NoDup (gnodes g);
  wf_al : forall n, In n (gnodes g) <-> alive g n = true;
  wf_link : linked g;
  wf_dnd : NoDup (gdec g);
  wf_di : incl (gdec g) (gnodes g);
  wf_dp : forall d, In d (gdec g) -> oget (gpred g) d = [];
  wf_dt : forall i d, nth_error (gdec g) i = Some d -> tkey (gtopo g) d = Z.of_nat i;
  wf_u : gsorted g = false -> forall n, In n (gnodes g) -> ~ In n (gdec g) -> tkey (gtopo g) n = (-1)%Z;
  wf_s : gsorted g = true -> (exists rest, gnodes g = gdec g ++ rest) /\
         (forall i n, nth_error (gnodes g) i = Some n -> tkey (gtopo g) n = Z.of_nat i) /\
         (forall p n, edge g p n -> (tkey (gtopo g) p <= tkey (gtopo g) n)%Z);
  wf_obj : forall n, gobj g = Some n -> In n (gnodes g);
  wf_cons : incl (gcons g) (gnodes g) }.

Lemma alive_lt g n : WF g -> In n (gnodes g) -> n < length (gpred g).
Proof.
  intros H Hn. apply (wf_al _ H) in Hn. unfold alive in Hn.
  destruct (Nat.lt_ge_cases n (length (galive g))) as [Hl|Hl]; [now rewrite <- (wf_la _ H)|].
  rewrite nth_overflow in Hn by auto. discriminate.
Qed.

Lemma tkey_nth tp n : n < length tp -> nth_error tp n = Some (tkey tp n).
Proof. intros H. unfold tkey. now apply nth_error_nth'. Qed.

Lemma occ_in x l : In x l <-> 0 < occ x l.
Proof. unfold occ. rewrite (count_occ_In Nat.eq_dec). lia. Qed.

Lemma linked_in g p n : WF g -> In p (gnodes g) -> In n (gnodes g) ->
  (In n (oget (gsucc g) p) <-> In p (oget (gpred g) n)).
Proof. intros H Hp Hn. rewrite !occ_in. now rewrite (proj1 (wf_link _ H) p n Hp Hn). Qed.

Lemma edge_succ g p n : WF g -> (edge g p n <-> In p (gnodes g) /\ In n (oget (gsucc g) p)).
Proof.
  intros H. destruct (wf_link _ H) as [L1 [L2 L3]]. split.
  - intros [Hn Hp]. assert (Hp' : In p (gnodes g)) by (eapply L3; eauto). split; auto.
    now apply (linked_in g p n).
  - intros [Hp Hn]. assert (Hn' : In n (gnodes g)) by (eapply L2; eauto). split; auto.
    now apply (linked_in g p n).
Qed.

Lemma edge_in g p n : WF g -> edge g p n -> In p (gnodes g) /\ In n (gnodes g).
Proof. intros H E. split; [now apply (edge_succ g p n H)|apply E]. Qed.

Lemma edge_nondec g p n : WF g -> edge g p n -> ~ In n (gdec g).
Proof. intros H [Hn Hp] Hd. rewrite (wf_dp _ H n Hd) in Hp. destruct Hp. Qed.

Definition nondec (g : graph) : list nat := filter (fun n => negb (is_decision g n)) (gnodes g).

Lemma is_dec_spec g n : is_decision g n = true <-> In n (gdec g).
Proof.
  unfold is_decision. rewrite existsb_exists. split.
  - intros [x [Hx E]]. apply Nat.eqb_eq in E. now subst.
  - intros H. exists n. split; auto. apply Nat.eqb_refl.
Qed.
Lemma nondec_in g n : In n (nondec g) <-> In n (gnodes g) /\ ~ In n (gdec g).
Proof.
  unfold nondec. rewrite filter_In. rewrite negb_true_iff, <- not_true_iff_false, is_dec_spec. tauto.
Qed.

Lemma NoDup_app_intro (l1 l2 : list nat) : NoDup l1 -> NoDup l2 -> (forall x, In x l1 -> ~ In x l2) ->
  NoDup (l1 ++ l2).
Proof.
  induction 1 as [|x l Hx Hn IH]; intros H2 Hd; cbn; auto.
  constructor. - rewrite in_app_iff. intros [H|H]; auto. apply (Hd x); auto. left; auto.
  - apply IH; auto. intros y Hy; apply Hd; right; auto.
Qed.

Lemma dec_nondec_perm g : WF g -> Permutation (gdec g ++ nondec g) (gnodes g).
Proof.
  intros H. apply NoDup_Permutation.
  - apply NoDup_app_intro; [apply H|apply NoDup_filter, H|]. intros x Hx Hx'.
    apply nondec_in in Hx'. tauto.
  - apply H.
  - intros x. rewrite in_app_iff, nondec_in. split.
    + intros [Hx | [Hx _]]; auto. now apply (wf_di _ H).
    + intros Hx. destruct (in_dec Nat.eq_dec x (gdec g)); auto.
Qed.

Lemma nth_error_app_cases {A} (l1 l2 : list A) i x : nth_error (l1 ++ l2) i = Some x ->
  (i < length l1 /\ nth_error l1 i = Some x) \/ (length l1 <= i /\ nth_error l2 (i - length l1) = Some x).
Proof.
  intros H. destruct (Nat.lt_ge_cases i (length l1)) as [Hl|Hl].
  - left. rewrite nth_error_app1 in H by auto. auto.
  - right. rewrite nth_error_app2 in H by auto. auto.
Qed.

(** The result of sorting, given the list of non-decisions in the order of their numbers. *)
Definition with_order (g : graph) (ns : list nat) (tp : list Z) : graph :=
  Graph ns (gdec g) (gobj g) (gcons g) true (gpred g) (gsucc g) tp (galive g) (glisten g) (gremov g).

Lemma edge_perm g ns tp p n : Permutation ns (gnodes g) -> (edge (with_order g ns tp) p n <-> edge g p n).
Proof.
  intros HP. unfold edge; cbn. split; intros [H1 H2]; split; auto.
  - eapply Permutation_in; eauto.
  - eapply Permutation_in; [symmetry; eauto|auto].
Qed.

Lemma TL_split succ l1 n l2 : TL succ (l1 ++ n :: l2) -> incl (oget succ n) l2.
Proof. induction l1 as [|x t IH]; cbn; intros H; inversion H; auto. Qed.

Section Sort.
Variable g : graph.
Hypothesis Hwf : WF g.
Hypothesis Huns : gsorted g = false.

Lemma s_lt n : isal (galive g) n -> n < length (gtopo g).
Proof. intros H. rewrite (wf_lt _ Hwf). apply alive_lt; auto. now apply (wf_al _ Hwf). Qed.
Lemma s_W n : In n (nondec g) <-> isal (galive g) n /\ tkey (gtopo g) n = (-1)%Z.
Proof.
  rewrite nondec_in, (wf_al _ Hwf). unfold isal, alive. split.
  - intros [H1 H2]. split; auto. apply (wf_u _ Hwf); auto. now apply (wf_al _ Hwf).
  - intros [H1 H2]. split; auto. intros Hd. destruct (In_nth_error _ _ Hd) as [i Hi].
    rewrite (wf_dt _ Hwf i n Hi) in H2. lia.
Qed.
Lemma s_nn n : isal (galive g) n -> tkey (gtopo g) n = (-1)%Z \/ (0 <= tkey (gtopo g) n)%Z.
Proof.
  intros H. destruct (in_dec Nat.eq_dec n (gdec g)) as [Hd|Hd].
  - destruct (In_nth_error _ _ Hd) as [i Hi]. rewrite (wf_dt _ Hwf i n Hi). lia.
  - left. apply (wf_u _ Hwf); auto. now apply (wf_al _ Hwf).
Qed.
Lemma s_succ n m : isal (galive g) n -> In m (oget (gsucc g) n) -> In m (nondec g).
Proof.
  intros H Hm. apply (wf_al _ Hwf) in H.
  assert (E : edge g n m) by (apply edge_succ; auto).
  apply nondec_in. split; [apply E|]. now apply (edge_nondec g n m).
Qed.
Lemma s_len : length (gnodes g) = length (gdec g) + length (nondec g).
Proof. rewrite <- (Permutation_length (dec_nondec_perm g Hwf)). apply app_length. Qed.
Lemma s_N : (Z.of_nat (length (nondec g)) <= Z.of_nat (length (gnodes g)) - 1 + 1)%Z.
Proof. rewrite s_len. lia. Qed.
Lemma s_fuel : length (nondec g) < S (length (gtopo g)).
Proof.
  rewrite (wf_lt _ Hwf).
  assert (length (nondec g) <= length (seq 0 (length (gpred g)))).
  { apply NoDup_incl_length; [apply NoDup_filter, Hwf|]. intros x Hx. apply nondec_in in Hx.
    apply in_seq. pose proof (alive_lt g x Hwf (proj1 Hx)). lia. }
  rewrite seq_length in H. lia.
Qed.

Notation DIg := (DI (gsucc g) (gtopo g) (nondec g) (Z.of_nat (length (gnodes g)) - 1)).

(** What the final depth-first state gives. *)
Lemma final_state tp c bl : DIg tp c bl [] -> incl (nondec g) bl ->
  Permutation bl (nondec g) /\ length tp = length (gtopo g) /\ c = (Z.of_nat (length (gdec g)) - 1)%Z /\
  (forall i n, nth_error (gdec g ++ bl) i = Some n -> tkey tp n = Z.of_nat i) /\
  tsort tp (gnodes g) = gdec g ++ bl /\ TL (gsucc g) bl.
Proof.
  intros HD Hi.
  assert (HP : Permutation bl (nondec g)).
  { apply NoDup_Permutation; [apply (di_nd _ _ _ _ _ _ _ _ HD)|apply NoDup_filter, Hwf|].
    intros x; split; [apply (di_W _ _ _ _ _ _ _ _ HD)|apply Hi]. }
  assert (Hc : c = (Z.of_nat (length (gdec g)) - 1)%Z).
  { rewrite (di_c _ _ _ _ _ _ _ _ HD), s_len, (Permutation_length HP). lia. }
  assert (Hk : forall i n, nth_error (gdec g ++ bl) i = Some n -> tkey tp n = Z.of_nat i).
  { intros i n Hn. destruct (nth_error_app_cases _ _ _ _ Hn) as [[H1 H2] | [H1 H2]].
    - rewrite (di_rest _ _ _ _ _ _ _ _ HD n); [now apply (wf_dt _ Hwf)| |intros []].
      intros Hb. apply (di_W _ _ _ _ _ _ _ _ HD) in Hb. apply nondec_in in Hb. apply Hb.
      eapply nth_error_In; eauto.
    - rewrite (di_bl _ _ _ _ _ _ _ _ HD _ n H2), Hc. lia. }
  repeat split; auto.
  - apply HD.
  - apply sorted_unique with (tp := tp).
    + rewrite <- tsort_perm. rewrite <- (dec_nondec_perm g Hwf). now apply Permutation_app_head.
    + apply tsort_sorted.
    + apply keys_sorted with (k := 0). exact Hk.
  - apply HD.
Qed.

Definition order_of (g' : graph) (bl : list nat) (tp : list Z) : Prop :=
  g' = with_order g (gdec g ++ bl) tp /\ Permutation (gdec g ++ bl) (gnodes g) /\
  length tp = length (gtopo g) /\ TL (gsucc g) bl /\
  (forall i n, nth_error (gdec g ++ bl) i = Some n -> tkey tp n = Z.of_nat i).

Lemma sort_cases :
  match topological_sort g with
  | Ok g' => exists bl tp, order_of g' bl tp
  | Throw => ~ acyclic g
  | UB => False
  end.
Proof.
  unfold topological_sort. rewrite Huns.
  pose proof (rfold_visit_top (gsucc g) (galive g) (gtopo g) (nondec g)
    (Z.of_nat (length (gnodes g)) - 1) s_lt s_succ s_W s_nn s_N (S (length (gtopo g))) s_fuel
    (rev (gnodes g)) (gtopo g) (Z.of_nat (length (gnodes g)) - 1) []) as H.
  destruct (rfold _ _ (rev (gnodes g))) as [[tp c]| |].
  - destruct H as [bl [HD Hin]].
    + apply DI_start. auto.
    + intros n Hn. apply in_rev in Hn. now apply (wf_al _ Hwf).
    + rewrite app_nil_r in *.
      destruct (final_state tp c bl HD) as [HP [Hl [Hc [Hk [Hs HT]]]]].
      { intros n Hn. apply Hin; auto. apply -> in_rev. now apply nondec_in in Hn. }
      exists bl, tp. unfold order_of, with_order. rewrite Hs. repeat split; auto.
      rewrite <- (dec_nondec_perm g Hwf). now apply Permutation_app_head.
  - destruct H as [x Hx].
    + apply DI_start. auto.
    + intros n Hn. apply in_rev in Hn. now apply (wf_al _ Hwf).
    + intros Ha. apply (Ha x). clear - Hx Hwf. revert Hx.
      assert (Hgen : forall a b, clos_trans nat (sedge (gsucc g) (galive g)) a b -> reaches1 g a b); [|apply Hgen].
      intros a b Hab. induction Hab as [a b [H1 H2]|a b c H1 IH1 H2 IH2].
      * apply t_step. apply edge_succ; auto. split; auto. apply (wf_al _ Hwf). exact H1.
      * eapply t_trans; eauto.
  - apply H.
    + apply DI_start. auto.
    + intros n Hn. apply in_rev in Hn. now apply (wf_al _ Hwf).
Qed.

(** Non-decisions already in order. *)
Lemma sort_ordered : TL (gsucc g) (nondec g) ->
  exists tp, topological_sort g = Ok (with_order g (gdec g ++ nondec g) tp) /\
             order_of (with_order g (gdec g ++ nondec g) tp) (nondec g) tp.
Proof.
  intros HT. unfold topological_sort. rewrite Huns.
  destruct (length (gtopo g)) as [|k] eqn:Ek.
  { assert (Hn : gnodes g = []).
    { destruct (gnodes g) as [|n t] eqn:E; auto. exfalso.
      assert (H : n < length (gpred g)) by (apply alive_lt; auto; rewrite E; left; auto).
      rewrite <- (wf_lt _ Hwf), Ek in H. lia. }
    assert (Hd : gdec g = []).
    { destruct (gdec g) as [|n t] eqn:E; auto. exfalso.
      assert (H : In n (gnodes g)) by (apply (wf_di _ Hwf); rewrite E; left; auto). rewrite Hn in H. destruct H. }
    unfold nondec, order_of, with_order. rewrite Hn, Hd. cbn. exists (gtopo g). repeat split; auto. constructor.
    intros [|i] n H; discriminate. }
  assert (Hfil : filter (fun n => (tkey (gtopo g) n =? -1)%Z) (rev (rev (gnodes g))) ++ [] = nondec g).
  { rewrite app_nil_r, rev_involutive. unfold nondec. apply filter_ext_in. intros n Hn.
    apply Bool.eq_true_iff_eq. rewrite negb_true_iff, <- not_true_iff_false, is_dec_spec.
    apply (wf_al _ Hwf) in Hn as Hal. rewrite Z.eqb_eq. split.
    - intros E. assert (Hw : In n (nondec g)) by (apply s_W; auto). now apply nondec_in in Hw.
    - intros E. apply (wf_u _ Hwf); auto. }
  destruct (rfold_visit_ordered (gsucc g) (galive g) (gtopo g) (nondec g)
    (Z.of_nat (length (gnodes g)) - 1) s_lt s_succ s_W s_nn s_N k
    (rev (gnodes g)) (gtopo g) (Z.of_nat (length (gnodes g)) - 1) []) as [tp [c [E HD]]].
  - apply DI_start. auto.
  - intros n Hn. apply in_rev in Hn. now apply (wf_al _ Hwf).
  - apply NoDup_rev, Hwf.
  - intros n _ [].
  - now rewrite Hfil.
  - rewrite Hfil in HD. rewrite E.
    destruct (final_state tp c (nondec g) HD) as [HP [Hl [Hc [Hk [Hs HT']]]]].
    { intros n Hn; auto. }
    exists tp. rewrite Hs. split; [reflexivity|]. unfold order_of. repeat split; auto.
    now apply dec_nondec_perm.
Qed.

Lemma order_edge g' bl tp : order_of g' bl tp -> forall p n, edge g p n ->
  exists i j, i < j /\ nth_error (gdec g ++ bl) i = Some p /\ nth_error (gdec g ++ bl) j = Some n.
Proof.
  intros [-> [HP [Hl [HT Hk]]]] p n E.
  assert (Hp : In p (gdec g ++ bl)).
  { eapply Permutation_in; [symmetry; exact HP|]. now apply (edge_in g p n). }
  assert (Hnb : forall m, In m bl <-> In m (nondec g)).
  { assert (HP' : Permutation bl (nondec g)).
    { eapply Permutation_app_inv_l. rewrite HP. symmetry. now apply dec_nondec_perm. }
    intros m; split; apply Permutation_in; auto. now symmetry. }
  assert (Hn : In n bl).
  { apply Hnb, nondec_in. split; [apply E|]. now apply (edge_nondec g p n). }
  apply in_app_iff in Hp. destruct Hp as [Hp | Hp].
  - destruct (In_nth_error _ _ Hp) as [i Hi]. destruct (In_nth_error _ _ Hn) as [j Hj].
    exists i, (length (gdec g) + j). pose proof (nth_error_lt _ _ Hi).
    repeat split; [lia|now rewrite nth_error_app1|]. rewrite nth_error_app2 by lia.
    now replace (length (gdec g) + j - length (gdec g)) with j by lia.
  - destruct (in_split _ _ Hp) as [l1 [l2 Ebl]]. subst bl.
    assert (Hn' : In n l2).
    { apply (TL_split _ _ _ _ HT). now apply (edge_succ g p n). }
    destruct (In_nth_error _ _ Hn') as [j Hj].
    exists (length (gdec g) + length l1), (length (gdec g) + (length l1 + S j)).
    repeat split; [lia| |].
    + rewrite nth_error_app2 by lia. replace (_ + _ - _) with (length l1) by lia.
      rewrite nth_error_app2, Nat.sub_diag by lia. reflexivity.
    + rewrite nth_error_app2 by lia. replace (_ + _ - _) with (length l1 + S j) by lia.
      rewrite nth_error_app2 by lia. replace (_ + _ - _) with (S j) by lia. exact Hj.
Qed.

Lemma order_edge_lt g' bl tp : order_of g' bl tp -> forall p n, edge g p n -> (tkey tp p < tkey tp n)%Z.
Proof.
  intros H p n E. destruct (order_edge g' bl tp H p n E) as [i [j [Hij [Hi Hj]]]].
  destruct H as [_ [_ [_ [_ Hk]]]]. rewrite (Hk _ _ Hi), (Hk _ _ Hj). lia.
Qed.

Lemma order_acyclic g' bl tp : order_of g' bl tp -> acyclic g.
Proof.
  intros H n Hn.
  assert (Hlt : forall a b, reaches1 g a b -> (tkey tp a < tkey tp b)%Z).
  { intros a b Hab. induction Hab as [a b E|a b c H1 IH1 H2 IH2]; [|lia].
    now apply (order_edge_lt g' bl tp H). }
  specialize (Hlt n n Hn). lia.
Qed.

Lemma order_WF g' bl tp : order_of g' bl tp -> WF g'.
Proof.
  intros Ho. pose proof Ho as [-> [HP [Hl [HT Hk]]]]. destruct Hwf.
  assert (Hin : forall n, In n (gdec g ++ bl) <-> In n (gnodes g)).
  { intros n; split; apply Permutation_in; auto. now symmetry. }
  constructor; unfold with_order; cbn; auto.
  - congruence.
  - eapply Permutation_NoDup; [symmetry; exact HP|auto].
  - intros n. rewrite Hin. apply wf_al0.
  - destruct wf_link0 as [L1 [L2 L3]]. unfold linked; cbn. repeat split; intros p n.
    + rewrite !Hin. apply L1.
    + rewrite !Hin. apply L2.
    + rewrite !Hin. apply L3.
  - intros x Hx. apply Hin. auto.
  - intros i d Hd. apply Hk. rewrite nth_error_app1; auto. eapply nth_error_lt; eauto.
  - discriminate.
  - intros _. split; [eexists; reflexivity|]. split; auto. intros p n E.
    apply edge_perm in E; auto. pose proof (order_edge_lt _ _ _ Ho p n E). unfold tkey in *. lia.
  - intros n Hn. apply Hin; auto.
  - intros n Hn. apply Hin; auto.
Qed.
End Sort.

(** ** Operations preserve well-formedness *)
Lemma oget_snoc {A} (l : list (list A)) x p :
  oget (l ++ [x]) p = if p =? length l then x else oget l p.
Proof.
  unfold oget. destruct (Nat.eqb_spec p (length l)) as [-> | Hn].
  - rewrite app_nth2, Nat.sub_diag by lia. reflexivity.
  - destruct (Nat.lt_ge_cases p (length l)) as [H|H].
    + now rewrite app_nth1.
    + rewrite !nth_overflow; auto. rewrite app_length. cbn. lia.
Qed.

Lemma nth_snoc {A} (l : list A) x p d :
  nth p (l ++ [x]) d = if p =? length l then x else nth p l d.
Proof.
  destruct (Nat.eqb_spec p (length l)) as [-> | Hn].
  - rewrite app_nth2, Nat.sub_diag by lia. reflexivity.
  - destruct (Nat.lt_ge_cases p (length l)) as [H|H].
    + now rewrite app_nth1.
    + rewrite !nth_overflow; auto. rewrite app_length. cbn. lia.
Qed.

Lemma nth_lset {A} (l : list A) i x j d : i < length l -> nth j (lset i x l) d = if i =? j then x else nth j l d.
Proof.
  intros H. destruct (Nat.eqb_spec i j) as [-> | Hn].
  - apply nth_error_nth. now apply nth_error_lset_eq.
  - destruct (nth_error l j) as [y|] eqn:E.
    + rewrite (nth_error_nth l j d E). apply nth_error_nth. now rewrite nth_error_lset_neq.
    + apply nth_error_None in E. rewrite !nth_overflow; auto. now rewrite lset_length.
Qed.

Lemma occ_app x l1 l2 : occ x (l1 ++ l2) = occ x l1 + occ x l2.
Proof. apply count_occ_app. Qed.
Lemma occ_cons x y l : occ x (y :: l) = (if Nat.eq_dec y x then 1 else 0) + occ x l.
Proof. unfold occ; cbn. destruct (Nat.eq_dec y x); reflexivity. Qed.

Lemma push_succ_length n s p : length (push_succ n s p) = length s.
Proof. apply lset_length. Qed.

Lemma fold_push_length n ps s : length (fold_left (push_succ n) ps s) = length s.
Proof. revert s; induction ps as [|p ps IH]; intros s; cbn; auto. now rewrite IH, push_succ_length. Qed.

Lemma push_occ n s p m q : p < length s ->
  occ m (oget (push_succ n s p) q) = occ m (oget s q) + (if p =? q then occ m [n] else 0).
Proof.
  intros H. unfold push_succ, oget. rewrite nth_lset by auto.
  destruct (Nat.eqb_spec p q) as [-> | Hn]; [|lia]. now rewrite occ_app.
Qed.

Lemma fold_push_occ n ps : forall s m q, (forall p, In p ps -> p < length s) ->
  occ m (oget (fold_left (push_succ n) ps s) q) = occ m (oget s q) + (if m =? n then occ q ps else 0).
Proof.
  induction ps as [|p ps IH]; intros s m q H; cbn [fold_left].
  - cbn. destruct (m =? n); lia.
  - rewrite IH by (intros x Hx; rewrite push_succ_length; apply H; right; auto).
    rewrite push_occ by (apply H; left; auto). rewrite !occ_cons. cbn [occ count_occ].
    destruct (Nat.eqb_spec p q) as [Epq | Npq]; destruct (Nat.eq_dec p q) as [Epq' | Npq']; try congruence;
    destruct (Nat.eqb_spec m n) as [E1 | N1]; destruct (Nat.eq_dec n m) as [E2|N2]; try congruence; cbn; lia.
Qed.

Lemma fold_push_in n ps s m q : (forall p, In p ps -> p < length s) ->
  (In m (oget (fold_left (push_succ n) ps s) q) <-> In m (oget s q) \/ (m = n /\ In q ps)).
Proof.
  intros H. rewrite !occ_in, fold_push_occ by auto. destruct (Nat.eqb_spec m n) as [-> | Hn].
  - lia. - split; [lia|]. intros [Hm | [E _]]; [lia|congruence].
Qed.

Lemma oget_out {A} (l : list (list A)) n : length l <= n -> oget l n = [].
Proof. intros H. unfold oget. now apply nth_overflow. Qed.

Lemma emplace_WF g d r ps g' : WF g -> emplace_node g d r ps = Ok g' -> (d = true -> ps = []) -> WF g'.
Proof.
  intros H. unfold emplace_node. destruct (gsorted g) eqn:Es; [discriminate|].
  destruct (forallb (alive g) ps) eqn:Ef; [|discriminate]. cbn [negb]. intros E Hd. injection E as <-.
  rewrite forallb_forall in Ef.
  assert (Hps : forall p, In p ps -> In p (gnodes g)) by (intros p Hp; apply (wf_al _ H); auto).
  assert (Hlt : forall p, In p (gnodes g) -> p < length (gpred g)) by (intros; now apply alive_lt).
  assert (Hps' : forall p, In p ps -> p < length (gsucc g ++ [[]])).
  { intros p Hp. rewrite app_length, (wf_ls _ H). specialize (Hlt p (Hps p Hp)). lia. }
  set (n := length (gpred g)) in *.
  assert (Hfresh : ~ In n (gnodes g)) by (intros Hn; specialize (Hlt n Hn); unfold n in Hlt; lia).
  assert (Hfd : ~ In n (gdec g)) by (intros Hn; apply Hfresh, (wf_di _ H); auto).
  destruct (wf_link _ H) as [L1 [L2 L3]].
  constructor; cbn -[oget].
  - rewrite fold_push_length, !app_length, (wf_ls _ H); auto.
  - rewrite !app_length, (wf_lt _ H); auto.
  - rewrite !app_length, (wf_la _ H); auto.
  - rewrite !app_length, (wf_ll _ H); auto.
  - rewrite !app_length, (wf_lr _ H); auto.
  - apply NoDup_app_intro; [apply H| |].
    + constructor; [intros []|constructor].
    + intros x Hx [<- | []]; auto.
  - intros m. unfold alive. cbn. rewrite nth_snoc, in_app_iff, (wf_la _ H). fold n.
    destruct (Nat.eqb_spec m n) as [-> | Hn].
    + cbn. tauto.
    + rewrite (wf_al _ H). unfold alive. cbn. intuition congruence.
  - unfold linked; cbn -[oget]. split; [|split].
    + intros p m Hp Hm. rewrite fold_push_occ by auto. rewrite !oget_snoc, (wf_ls _ H). fold n.
      rewrite in_app_iff in Hp, Hm. cbn in Hp, Hm.
      destruct (Nat.eqb_spec m n) as [-> | Hmn]; destruct (Nat.eqb_spec p n) as [-> | Hpn].
      * reflexivity.
      * destruct Hp as [Hp | [Hp | []]]; [|congruence].
        assert (E0 : occ n (oget (gsucc g) p) = 0).
        { destruct (occ n (oget (gsucc g) p)) eqn:E0; auto. exfalso. apply Hfresh, (L2 p n Hp), occ_in. lia. }
        lia.
      * destruct Hm as [Hm | [Hm | []]]; [|congruence].
        assert (E0 : occ n (oget (gpred g) m) = 0).
        { destruct (occ n (oget (gpred g) m)) eqn:E0; auto. exfalso. apply Hfresh, (L3 n m Hm), occ_in. lia. }
        cbn. lia.
      * destruct Hp as [Hp | [Hp | []]]; [|congruence]. destruct Hm as [Hm | [Hm | []]]; [|congruence].
        rewrite L1 by auto. lia.
    + intros p m Hp. rewrite fold_push_in by auto. rewrite oget_snoc, (wf_ls _ H). fold n.
      rewrite in_app_iff in *. cbn in *. destruct (Nat.eqb_spec p n) as [-> | Hpn]; [intros [[] | [-> _]]; auto|].
      destruct Hp as [Hp | [Hp | []]]; [|congruence]. intros [Hm | [-> Hm]]; auto. left. now apply (L2 p).
    + intros p m Hm. rewrite oget_snoc. fold n. rewrite in_app_iff in *. cbn in *.
      destruct (Nat.eqb_spec m n) as [-> | Hmn]; [auto|].
      destruct Hm as [Hm | [Hm | []]]; [|congruence]. intros Hp. left. now apply (L3 p m).
  - destruct d; [|apply H]. apply NoDup_app_intro; [apply H| |].
    + constructor; [intros []|constructor].
    + intros x Hx [<- | []]; auto.
  - intros x Hx. rewrite in_app_iff in *. destruct d.
    + apply in_app_iff in Hx. destruct Hx as [Hx | Hx]; auto. left. now apply (wf_di _ H).
    + left. now apply (wf_di _ H).
  - intros x Hx. rewrite oget_snoc. fold n. destruct d.
    + apply in_app_iff in Hx. destruct (Nat.eqb_spec x n) as [-> | Hne]; [auto|].
      destruct Hx as [Hx | [Hx | []]]; [|congruence]. now apply (wf_dp _ H).
    + destruct (Nat.eqb_spec x n) as [-> | Hne]; [tauto|]. now apply (wf_dp _ H).
  - intros i x Hx. unfold tkey. rewrite nth_snoc, (wf_lt _ H). fold n. destruct d.
    + destruct (nth_error_app_cases _ _ _ _ Hx) as [[H1 H2] | [H1 H2]].
      * destruct (Nat.eqb_spec x n) as [-> | Hne]; [exfalso; apply Hfd; eapply nth_error_In; eauto|].
        now apply (wf_dt _ H).
      * destruct (i - length (gdec g)) as [|j] eqn:Ei; [|destruct j; discriminate].
        injection H2 as <-. rewrite Nat.eqb_refl. f_equal. lia.
    + destruct (Nat.eqb_spec x n) as [-> | Hne]; [exfalso; apply Hfd; eapply nth_error_In; eauto|].
      now apply (wf_dt _ H).
  - intros _ x Hx Hx'. unfold tkey. rewrite nth_snoc, (wf_lt _ H). fold n.
    rewrite in_app_iff in Hx. cbn in Hx. destruct d.
    + rewrite in_app_iff in Hx'. cbn in Hx'.
      destruct (Nat.eqb_spec x n) as [-> | Hne]; [tauto|].
      apply (wf_u _ H); auto. intuition congruence.
    + destruct (Nat.eqb_spec x n) as [-> | Hne]; auto.
      apply (wf_u _ H); auto. intuition congruence.
  - discriminate.
  - intros x Hx. apply in_app_iff. left. now apply (wf_obj _ H).
  - intros x Hx. apply in_app_iff. left. now apply (wf_cons _ H).
Qed.

Lemma add_node_WF g n p g' : WF g -> add_node g n p = Ok g' -> WF g'.
Proof.
  intros H. unfold add_node.
  destruct (alive g n) eqn:Ean; [|discriminate]. destruct (alive g p) eqn:Eap; [|discriminate]. cbn [andb negb].
  destruct (existsb (Nat.eqb n) (gdec g)) eqn:Ed; [discriminate|].
  destruct (_ && _ && _) eqn:Et; [discriminate|]. intros E. injection E as <-.
  assert (Hn : In n (gnodes g)) by now apply (wf_al _ H).
  assert (Hp : In p (gnodes g)) by now apply (wf_al _ H).
  assert (Hnd : ~ In n (gdec g)) by (rewrite <- is_dec_spec; unfold is_decision; congruence).
  assert (Hln : n < length (gpred g)) by now apply alive_lt.
  assert (Hlp : p < length (gsucc g)) by (rewrite (wf_ls _ H); now apply alive_lt).
  destruct (wf_link _ H) as [L1 [L2 L3]].
  assert (Hpred : forall m, oget (lset n (oget (gpred g) n ++ [p]) (gpred g)) m =
                  if n =? m then oget (gpred g) n ++ [p] else oget (gpred g) m).
  { intros m. unfold oget. now rewrite nth_lset. }
  constructor; cbn -[oget]; try apply H.
  - rewrite push_succ_length, lset_length. apply H.
  - rewrite lset_length. apply H.
  - rewrite lset_length. apply H.
  - rewrite lset_length. apply H.
  - rewrite lset_length. apply H.
  - unfold linked; cbn -[oget]. split; [|split].
    + intros q m Hq Hm. rewrite push_occ by auto. rewrite Hpred. rewrite L1 by auto. cbn [occ count_occ].
      destruct (Nat.eqb_spec p q) as [<- | Npq]; destruct (Nat.eqb_spec n m) as [<- | Nnm];
        rewrite ?occ_app, ?occ_cons; cbn [occ count_occ].
      * destruct (Nat.eq_dec n n); destruct (Nat.eq_dec p p); try congruence. lia.
      * destruct (Nat.eq_dec n m); congruence || (cbn; lia).
      * destruct (Nat.eq_dec p q); try congruence. cbn; lia.
      * lia.
    + intros q m Hq. rewrite occ_in, push_occ by auto. intros Hm.
      destruct (Nat.eqb_spec p q) as [<- | Npq].
      * rewrite <- occ_app, <- occ_in, in_app_iff in Hm. destruct Hm as [Hm | [<- | []]]; auto. now apply (L2 p).
      * rewrite Nat.add_0_r, <- occ_in in Hm. now apply (L2 q).
    + intros q m Hm. rewrite Hpred. destruct (Nat.eqb_spec n m) as [<- | Nnm].
      * rewrite in_app_iff. intros [Hq | [<- | []]]; auto. now apply (L3 q n).
      * intros Hq. now apply (L3 q m).
  - intros d Hd. rewrite Hpred. destruct (Nat.eqb_spec n d) as [<- | _]; [tauto|]. now apply (wf_dp _ H).
  - intros Hs. destruct (wf_s _ H Hs) as [S1 [S2 S3]]. split; [auto|split; auto].
    intros q m [Hm Hq]. cbn -[oget] in *. rewrite Hpred in Hq.
    destruct (Nat.eqb_spec n m) as [<- | Nnm].
    + apply in_app_iff in Hq. destruct Hq as [Hq | [<- | []]]; [apply S3; split; auto|].
      unfold tkey.
      destruct (In_nth_error _ _ Hn) as [i Hi]. pose proof (S2 i n Hi) as Kn.
      destruct (In_nth_error _ _ Hp) as [j Hj]. pose proof (S2 j p Hj) as Kp. unfold tkey in Kn, Kp.
      destruct (Z.leb_spec 0 (nth n (gtopo g) (-1)%Z)); [|lia].
      destruct (Z.leb_spec 0 (nth p (gtopo g) (-1)%Z)); [|lia].
      destruct (Z.ltb_spec (nth n (gtopo g) (-1)%Z) (nth p (gtopo g) (-1)%Z)); [discriminate|]. lia.
    + apply S3; split; auto.
Qed.

Lemma sort_WF g g' : WF g -> topological_sort g = Ok g' -> WF g'.
Proof.
  intros H E. destruct (gsorted g) eqn:Es.
  - unfold topological_sort in E. rewrite Es in E. injection E as <-. auto.
  - pose proof (sort_cases g H Es) as Hc. rewrite E in Hc. destruct Hc as [bl [tp Ho]].
    eapply order_WF; eauto.
Qed.

Lemma fold_lset_tkey ns : forall tp n, (forall m, In m ns -> m < length tp) ->
  tkey (fold_left (fun tp n => lset n (-1)%Z tp) ns tp) n = if existsb (Nat.eqb n) ns then (-1)%Z else tkey tp n.
Proof.
  induction ns as [|m ns IH]; intros tp n H; cbn [fold_left existsb]; auto.
  rewrite IH by (intros x Hx; rewrite lset_length; apply H; right; auto).
  rewrite tkey_lset by (apply H; left; auto). rewrite (Nat.eqb_sym m n).
  destruct (n =? m); cbn; auto. now destruct (existsb _ ns).
Qed.
Lemma fold_lset_length (z : Z) ns : forall tp, length (fold_left (fun tp n => lset n z tp) ns tp) = length tp.
Proof. induction ns as [|m ns IH]; intros tp; cbn; auto. now rewrite IH, lset_length. Qed.

Lemma skipn_dec g rest : gnodes g = gdec g ++ rest -> skipn (length (gdec g)) (gnodes g) = rest.
Proof. intros ->. rewrite skipn_app, skipn_all, Nat.sub_diag. reflexivity. Qed.

Lemma existsb_In n l : existsb (Nat.eqb n) l = true <-> In n l.
Proof.
  rewrite existsb_exists. split.
  - intros [x [Hx E]]. apply Nat.eqb_eq in E. now subst.
  - intros H. exists n. split; auto. apply Nat.eqb_refl.
Qed.

(** The body of [reset_topological_sort] only needs the decisions to be a prefix. *)
Lemma NoDup_app_disj (l1 l2 : list nat) : NoDup (l1 ++ l2) -> forall x, In x l1 -> In x l2 -> False.
Proof.
  induction l1 as [|a l IH]; cbn; intros H x; [tauto|]. inversion H as [|? ? H1 H2]; subst.
  intros [-> | Hx] Hx2; [apply H1, in_app_iff; auto|eauto].
Qed.

Lemma reset_tkey g rest n : gsorted g = true -> gnodes g = gdec g ++ rest -> NoDup (gnodes g) ->
  (forall m, In m (gnodes g) -> m < length (gtopo g)) ->
  tkey (gtopo (reset_topological_sort g)) n =
  if existsb (Nat.eqb n) rest then (-1)%Z else tkey (gtopo g) n.
Proof.
  intros Hs E Hnd Hl. unfold reset_topological_sort. rewrite Hs. cbn [negb gtopo].
  rewrite (skipn_dec g rest E). apply fold_lset_tkey. intros m Hm. apply Hl. rewrite E. apply in_app_iff; auto.
Qed.

Lemma reset_WF g : WF g -> WF (reset_topological_sort g).
Proof.
  intros H. destruct (gsorted g) eqn:Es; [|unfold reset_topological_sort; rewrite Es; auto].
  destruct (wf_s _ H Es) as [[rest Er] [S2 S3]].
  assert (Hl : forall m, In m (gnodes g) -> m < length (gtopo g)).
  { intros m Hm. rewrite (wf_lt _ H). now apply alive_lt. }
  pose proof (fun n => reset_tkey g rest n Es Er (wf_nd _ H) Hl) as Hk.
  unfold reset_topological_sort in *. rewrite Es in *. cbn [negb gtopo] in *.
  constructor; cbn -[tkey]; try apply H.
  - rewrite fold_lset_length. apply H.
  - intros i d Hd. rewrite Hk. destruct (existsb (Nat.eqb d) rest) eqn:Ee; [|now apply (wf_dt _ H)].
    exfalso. apply existsb_In in Ee. pose proof (wf_nd _ H) as Hnd. rewrite Er in Hnd.
    apply (NoDup_app_disj _ _ Hnd d); auto. eapply nth_error_In; eauto.
  - intros _ n Hn Hd. rewrite Hk. rewrite Er, in_app_iff in Hn.
    destruct Hn as [Hn|Hn]; [tauto|]. apply existsb_In in Hn. now rewrite Hn.
  - discriminate.
Qed.

(** ** remove_unused_nodes *)
Notation inb n R := (existsb (Nat.eqb n) R).

Lemma mark_cons_spec k cons : forall tp n, (forall m, In m cons -> m < length tp) ->
  length (mark_cons k cons tp) = length tp /\
  tkey (mark_cons k cons tp) n =
  if inb n cons && (Z.of_nat k <=? tkey tp n)%Z then keep_mark else tkey tp n.
Proof.
  unfold mark_cons. induction cons as [|m cons IH]; intros tp n H; cbn [fold_left existsb]; auto.
  set (tp' := if (tkey tp m <? Z.of_nat k)%Z then tp else lset m keep_mark tp).
  assert (Hm : m < length tp) by (apply H; left; auto).
  assert (Hl : length tp' = length tp) by (unfold tp'; destruct (_ <? _)%Z; rewrite ?lset_length; auto).
  destruct (IH tp' n) as [IH1 IH2]; [intros x Hx; rewrite Hl; apply H; right; auto|].
  split; [congruence|]. rewrite IH2.
  assert (Hk : tkey tp' n = if (n =? m) && (Z.of_nat k <=? tkey tp n)%Z then keep_mark else tkey tp n).
  { unfold tp'. destruct (Z.ltb_spec (tkey tp m) (Z.of_nat k)) as [Hlt|Hge].
    - destruct (Nat.eqb_spec n m) as [-> | Hn]; auto. destruct (Z.leb_spec (Z.of_nat k) (tkey tp m)); cbn; auto; lia.
    - rewrite tkey_lset by auto. rewrite (Nat.eqb_sym m n). destruct (Nat.eqb_spec n m) as [-> | Hn]; auto.
      destruct (Z.leb_spec (Z.of_nat k) (tkey tp m)); cbn; auto; lia. }
  rewrite Hk. destruct (n =? m); cbn [andb orb]; auto.
  destruct (Z.leb_spec (Z.of_nat k) (tkey tp n)) as [Ha|Ha]; cbn [andb].
  - unfold keep_mark in *. destruct (Z.leb_spec (Z.of_nat k) (-2)); [lia|]. now rewrite andb_false_r.
  - destruct (Z.leb_spec (Z.of_nat k) (tkey tp n)); [lia|]. now rewrite andb_false_r.
Qed.

Lemma mark_obj_spec k obj tp n : (forall m, obj = Some m -> m < length tp) ->
  length (mark_obj k obj tp) = length tp /\
  tkey (mark_obj k obj tp) n =
  if match obj with Some m => n =? m | None => false end && (Z.of_nat k <=? tkey tp n)%Z
  then keep_mark else tkey tp n.
Proof.
  intros H. unfold mark_obj. destruct obj as [m|]; auto. specialize (H m eq_refl).
  destruct (Z.leb_spec (Z.of_nat k) (tkey tp m)) as [Hlt|Hge].
  - rewrite lset_length. split; auto. rewrite tkey_lset by auto. rewrite (Nat.eqb_sym m n).
    destruct (Nat.eqb_spec n m) as [-> | Hn]; auto. destruct (Z.leb_spec (Z.of_nat k) (tkey tp m)); cbn; auto; lia.
  - split; auto. destruct (Nat.eqb_spec n m) as [-> | Hn]; auto.
    destruct (Z.leb_spec (Z.of_nat k) (tkey tp m)); cbn; auto; lia.
Qed.

Lemma mark_listen_spec ls ns : forall tp n, (forall m, In m ns -> m < length tp) ->
  length (mark_listen ls ns tp) = length tp /\
  tkey (mark_listen ls ns tp) n = if inb n ns && nth n ls false then keep_mark else tkey tp n.
Proof.
  unfold mark_listen. induction ns as [|m ns IH]; intros tp n H; cbn [fold_left existsb]; auto.
  set (tp' := if nth m ls false then lset m keep_mark tp else tp).
  assert (Hm : m < length tp) by (apply H; left; auto).
  assert (Hl : length tp' = length tp) by (unfold tp'; destruct (nth m ls false); rewrite ?lset_length; auto).
  destruct (IH tp' n) as [IH1 IH2]; [intros x Hx; rewrite Hl; apply H; right; auto|].
  split; [congruence|]. rewrite IH2.
  assert (Hk : tkey tp' n = if (n =? m) && nth n ls false then keep_mark else tkey tp n).
  { unfold tp'. destruct (Nat.eqb_spec n m) as [-> | Hn].
    - destruct (nth m ls false); cbn; auto. rewrite tkey_lset, Nat.eqb_refl by auto. auto.
    - destruct (nth m ls false); cbn; auto. rewrite tkey_lset by auto.
      destruct (Nat.eqb_spec m n); auto; congruence. }
  rewrite Hk. destruct (n =? m); cbn [andb orb]; auto.
  destruct (nth n ls false); cbn; auto; rewrite ?andb_false_r; auto. now destruct (inb n ns).
Qed.

Lemma erase_length n ps : forall s, length (fold_left (erase_succ n) ps s) = length s.
Proof. induction ps as [|p ps IH]; intros s; cbn; auto. unfold erase_succ at 2. now rewrite IH, lset_length. Qed.

Lemma filter_filter {A} (f h : A -> bool) l : filter f (filter h l) = filter (fun x => h x && f x) l.
Proof.
  induction l as [|x l IH]; cbn; auto. destruct (h x) eqn:E; cbn; rewrite IH; auto.
Qed.

Lemma erase_oget n ps : forall s q, (forall p, In p ps -> p < length s) ->
  oget (fold_left (erase_succ n) ps s) q =
  if inb q ps then filter (fun m => negb (m =? n)) (oget s q) else oget s q.
Proof.
  induction ps as [|p ps IH]; intros s q H; cbn [fold_left existsb]; auto.
  rewrite IH by (intros x Hx; unfold erase_succ; rewrite lset_length; apply H; right; auto).
  assert (Hp : p < length s) by (apply H; left; auto).
  assert (E : oget (erase_succ n s p) q = if q =? p then filter (fun m => negb (m =? n)) (oget s q) else oget s q).
  { unfold erase_succ, oget. rewrite nth_lset by auto. rewrite (Nat.eqb_sym p q).
    destruct (Nat.eqb_spec q p) as [-> | _]; auto. }
  rewrite E. destruct (q =? p); cbn [orb]; auto. destruct (inb q ps); auto.
  rewrite filter_filter. apply filter_ext. intros x. now destruct (x =? n).
Qed.

Lemma filter_noop {A} (f : A -> bool) l : (forall x, In x l -> f x = true) -> filter f l = l.
Proof.
  induction l as [|x l IH]; intros H; cbn; auto. rewrite H by (left; auto). f_equal. apply IH.
  intros y Hy; apply H; right; auto.
Qed.

Section Remove.
Variable g : graph.
Hypothesis Hwf : WF g.
Variable rest : list nat.
Hypothesis Hrest : gnodes g = gdec g ++ rest.
Variable tp2 : list Z.

Record RI (done R : list nat) (succ : list (list nat)) (al : list bool) : Prop := {
  ri_ls : length succ = length (gsucc g);
  ri_la : length al = length (galive g);
  ri_R : incl R done;
  ri_al : forall n, nth n al false = alive g n && negb (inb n R);
  ri_succ : forall p, In p (gnodes g) -> ~ In p R ->
            oget succ p = filter (fun m => negb (inb m R)) (oget (gsucc g) p);
  ri_cl : forall n m, In n R -> In m (oget (gsucc g) n) -> In m R;
  ri_ok : forall n, In n R -> tkey tp2 n <> keep_mark /\ nth n (gremov g) true = true;
  ri_ex : TL (gsucc g) rest -> forall n, In n done -> ~ In n R ->
          exists r, In r (gnodes g) /\ reaches g n r /\
                    (tkey tp2 r = keep_mark \/ nth r (gremov g) true = false) }.

Lemma RI_cons done R succ al n todo : rest = todo ++ n :: done -> RI done R succ al ->
  let (succ', al') := remove1 tp2 (gremov g) (gpred g) (succ, al) n in
  exists R', RI (n :: done) R' succ' al'.
Proof.
  intros Er H. unfold remove1.
  assert (Hn : In n (gnodes g)).
  { rewrite Hrest, Er. apply in_app_iff. right. apply in_app_iff. right. left; auto. }
  assert (Hnd : ~ In n done).
  { pose proof (wf_nd _ Hwf) as Hnd. rewrite Hrest, Er, app_assoc in Hnd.
    apply NoDup_remove_2 in Hnd. rewrite in_app_iff in Hnd. tauto. }
  assert (HnR : ~ In n R) by (intros Hx; apply Hnd, (ri_R _ _ _ _ H); auto).
  assert (Hkeep : forall (P : tkey tp2 n = keep_mark \/ nth n (gremov g) true = false \/
                         (TL (gsucc g) rest -> exists m, In m (oget (gsucc g) n) /\ ~ In m R)),
                  exists R', RI (n :: done) R' succ al).
  { intros HP. exists R. destruct H. constructor; auto.
    - intros x Hx; right; auto.
    - intros HT x [<- | Hx] HxR; auto.
      destruct HP as [HP | [HP | HP]].
      + exists n. repeat split; auto. apply rt_refl.
      + exists n. repeat split; auto. apply rt_refl.
      + destruct (HP HT) as [m [Hm HmR]].
        assert (Hmd : In m done).
        { rewrite Er in HT. now apply (TL_split _ _ _ _ HT). }
        destruct (ri_ex0 HT m Hmd HmR) as [r [H1 [H2 H3]]]. exists r. repeat split; auto.
        apply rt_trans with m; auto. apply rt_step. apply edge_succ; auto. }
  destruct (nth n (gremov g) true) eqn:Erm; cbn [negb]; [|apply Hkeep; auto].
  destruct (Z.eqb_spec (tkey tp2 n) keep_mark) as [Ek|Ek]; [apply Hkeep; auto|].
  destruct (Nat.ltb_spec 0 (length (oget succ n))) as [El|El].
  - apply Hkeep. right; right. intros _. rewrite (ri_succ _ _ _ _ H n Hn HnR) in El.
    destruct (filter (fun m => negb (inb m R)) (oget (gsucc g) n)) as [|m l] eqn:Ef; [cbn in El; lia|].
    assert (Hm : In m (m :: l)) by (left; auto). rewrite <- Ef in Hm. apply filter_In in Hm.
    exists m. split; [tauto|]. rewrite <- existsb_In. destruct Hm as [_ Hm]. apply negb_true_iff in Hm. congruence.
  - exists (n :: R).
    assert (Hempty : forall m, In m (oget (gsucc g) n) -> In m R).
    { intros m Hm. rewrite (ri_succ _ _ _ _ H n Hn HnR) in El.
      destruct (inb m R) eqn:Em; [now apply existsb_In|]. exfalso.
      assert (Hx : In m (filter (fun m => negb (inb m R)) (oget (gsucc g) n))).
      { apply filter_In. rewrite Em. auto. }
      destruct (filter _ _); [destruct Hx|cbn in El; lia]. }
    assert (Hps : forall p, In p (oget (gpred g) n) -> p < length succ).
    { intros p Hp. rewrite (ri_ls _ _ _ _ H), (wf_ls _ Hwf). apply alive_lt; auto.
      now apply (proj2 (proj2 (wf_link _ Hwf)) p n). }
    constructor.
    + rewrite erase_length. apply H.
    + rewrite lset_length. apply H.
    + intros x [<- | Hx]; [left; auto|right; apply (ri_R _ _ _ _ H); auto].
    + intros x. rewrite nth_lset.
      * cbn [existsb]. rewrite (Nat.eqb_sym n x). destruct (x =? n); cbn [orb negb].
        -- now rewrite andb_false_r. -- apply H.
      * rewrite (ri_la _ _ _ _ H), (wf_la _ Hwf). now apply alive_lt.
    + intros p Hp HpR. rewrite erase_oget by auto.
      assert (HpR' : ~ In p R) by (intros Hx; apply HpR; right; auto).
      rewrite (ri_succ _ _ _ _ H p Hp HpR').
      assert (E : filter (fun m => negb (inb m (n :: R))) (oget (gsucc g) p) =
                  filter (fun m => negb (m =? n)) (filter (fun m => negb (inb m R)) (oget (gsucc g) p))).
      { rewrite filter_filter. apply filter_ext. intros x. cbn [existsb].
        destruct (x =? n); cbn; rewrite ?andb_false_r, ?andb_true_r; auto. }
      rewrite E. destruct (inb p (oget (gpred g) n)) eqn:Ep; auto.
      symmetry. apply filter_noop. intros x Hx. apply filter_In in Hx. apply negb_true_iff.
      apply Nat.eqb_neq. intros ->. destruct Hx as [Hx _].
      apply (linked_in g p n Hwf Hp Hn) in Hx. apply existsb_In in Hx. congruence.
    + intros x m [<- | Hx] Hm; right; auto. eapply (ri_cl _ _ _ _ H); eauto.
    + intros x [<- | Hx]; auto. now apply (ri_ok _ _ _ _ H).
    + intros HT x Hx HxR. destruct Hx as [<- | Hx]; [exfalso; apply HxR; left; auto|].
      apply (ri_ex _ _ _ _ H); auto. intros Hy; apply HxR; right; auto.
Qed.

Lemma RI_fold : forall todo done R succ al, rest = todo ++ done -> RI done R succ al ->
  let (succ', al') := fold_left (remove1 tp2 (gremov g) (gpred g)) (rev todo) (succ, al) in
  exists R', RI rest R' succ' al'.
Proof.
  intros todo. induction todo as [|n todo IH] using rev_ind; intros done R succ al E H.
  - cbn. cbn in E. subst. eauto.
  - rewrite rev_app_distr. cbn [rev app fold_left].
    rewrite <- app_assoc in E. cbn in E.
    pose proof (RI_cons done R succ al n todo E H) as H1.
    destruct (remove1 _ _ _ (succ, al) n) as [succ1 al1]. destruct H1 as [R1 H1].
    now apply (IH (n :: done) R1).
Qed.

Lemma RI_start : RI [] [] (gsucc g) (galive g).
Proof.
  constructor; auto; try (intros; cbn in *; tauto).
  - intros x [].
  - intros n. cbn. now rewrite andb_true_r.
  - intros p _ _. symmetry. apply filter_noop. auto.
Qed.
End Remove.

Lemma sorted_TL g rest : WF g -> gsorted g = true -> gnodes g = gdec g ++ rest -> acyclic g -> TL (gsucc g) rest.
Proof.
  intros H Hs E Ha. destruct (wf_s _ H Hs) as [_ [S2 S3]].
  assert (Hgen : forall l1 l2, rest = l1 ++ l2 -> TL (gsucc g) l2).
  { intros l1 l2. revert l1. induction l2 as [|n l2 IH]; intros l1 El; [constructor|].
    constructor; [|apply (IH (l1 ++ [n])); rewrite <- app_assoc; auto].
    intros m Hm.
    assert (Hn : nth_error (gnodes g) (length (gdec g ++ l1)) = Some n).
    { rewrite E, El, app_assoc, nth_error_app2, Nat.sub_diag by lia. reflexivity. }
    assert (Ed : edge g n m).
    { apply edge_succ; auto. split; auto. eapply nth_error_In; eauto. }
    pose proof (S3 n m Ed) as Hle.
    destruct (In_nth_error _ _ (proj2 (edge_in g n m H Ed))) as [j Hj].
    rewrite (S2 _ _ Hn), (S2 _ _ Hj) in Hle.
    assert (j <> length (gdec g ++ l1)).
    { intros ->. assert (m = n) by congruence. subst m. apply (Ha n). now apply t_step. }
    rewrite E, El, app_assoc, nth_error_app2 in Hj by lia.
    destruct (j - length (gdec g ++ l1)) as [|k] eqn:Ek; [lia|]. cbn in Hj. eapply nth_error_In; eauto. }
  now apply (Hgen [] rest).
Qed.

Lemma reaches_in g a b : WF g -> reaches g a b -> In b (gnodes g) -> In a (gnodes g).
Proof.
  intros H Hr. induction Hr as [a b E|a|a b c H1 IH1 H2 IH2]; auto.
  intros _. now apply (edge_in g a b).
Qed.

(** What [remove_unused_nodes] does to a sorted graph. *)
Record removed (g g' : graph) (il : bool) (R : list nat) : Prop := {
  rm_nodes : gnodes g' = filter (fun n => negb (inb n R)) (gnodes g);
  rm_dec : gdec g' = gdec g;
  rm_obj : gobj g' = gobj g;
  rm_cons : gcons g' = gcons g;
  rm_sorted : gsorted g' = false;
  rm_pred : gpred g' = gpred g;
  rm_listen : glisten g' = glisten g;
  rm_remov : gremov g' = gremov g;
  rm_succ : forall p, In p (gnodes g') -> oget (gsucc g') p = filter (fun m => negb (inb m R)) (oget (gsucc g) p);
  rm_in : forall n, In n R -> In n (gnodes g) /\ ~ used g il n;
  rm_ex : acyclic g -> forall n, In n (gnodes g) -> ~ In n R -> used g il n;
  rm_wf : WF g' }.

Lemma remove_sorted g il : WF g -> gsorted g = true ->
  exists g' R, remove_unused_nodes g il = Ok (g', length (gnodes g) - length (gnodes g')) /\ removed g g' il R.
Proof.
  intros H Hs. destruct (wf_s _ H Hs) as [[rest Er] [S2 S3]].
  unfold remove_unused_nodes, topological_sort. rewrite Hs. cbn zeta. rewrite (skipn_dec g rest Er).
  set (k := length (gdec g)).
  set (tp1 := mark_obj k (gobj g) (mark_cons k (gcons g) (gtopo g))).
  set (tp2 := if il then tp1 else mark_listen (glisten g) rest tp1).
  assert (Hlt : forall n, In n (gnodes g) -> n < length (gtopo g)).
  { intros n Hn. rewrite (wf_lt _ H). now apply alive_lt. }
  assert (Hrest_in : forall n, In n rest -> In n (gnodes g)) by (intros; rewrite Er; apply in_app_iff; auto).
  assert (Hdisj : forall n, In n (gdec g) -> In n rest -> False).
  { pose proof (wf_nd _ H) as Hnd. rewrite Er in Hnd. apply (NoDup_app_disj _ _ Hnd). }
  assert (Hkd : forall n, In n (gdec g) -> (tkey (gtopo g) n < Z.of_nat k)%Z).
  { intros n Hn. destruct (In_nth_error _ _ Hn) as [i Hi]. rewrite (wf_dt _ H i n Hi).
    pose proof (nth_error_lt _ _ Hi). unfold k. lia. }
  assert (Hkr : forall n, In n rest -> (Z.of_nat k <= tkey (gtopo g) n)%Z).
  { intros n Hn. destruct (In_nth_error _ _ Hn) as [i Hi].
    rewrite (S2 (k + i) n); [lia|]. rewrite Er, nth_error_app2 by (unfold k; lia).
    unfold k. now replace (length (gdec g) + i - length (gdec g)) with i by lia. }
  pose proof (fun n => mark_cons_spec k (gcons g) (gtopo g) n (fun m Hm => Hlt m (wf_cons _ H m Hm))) as M1.
  assert (M2 : forall n, length tp1 = length (gtopo g) /\
    tkey tp1 n = if (match gobj g with Some m => n =? m | None => false end || inb n (gcons g))
                    && (Z.of_nat k <=? tkey (gtopo g) n)%Z then keep_mark else tkey (gtopo g) n).
  { intros n. unfold tp1. destruct (M1 n) as [M1a M1b].
    destruct (mark_obj_spec k (gobj g) (mark_cons k (gcons g) (gtopo g)) n) as [Ma Mb].
    { intros m Hm. rewrite M1a. apply Hlt. now apply (wf_obj _ H). }
    split; [congruence|]. rewrite Mb, M1b.
    destruct (match gobj g with Some m => n =? m | None => false end); cbn [orb andb].
    - destruct (inb n (gcons g)); destruct (Z.leb_spec (Z.of_nat k) (tkey (gtopo g) n)); cbn [andb]; auto;
        destruct (Z.leb_spec (Z.of_nat k) keep_mark); auto;
        destruct (Z.leb_spec (Z.of_nat k) (tkey (gtopo g) n)); auto; lia.
    - auto. }
  assert (M3 : length tp2 = length (gtopo g) /\ forall n,
    (In n (gdec g) -> tkey tp2 n = tkey (gtopo g) n) /\
    (In n rest -> (tkey tp2 n = keep_mark <->
       gobj g = Some n \/ In n (gcons g) \/ (il = false /\ nth n (glisten g) false = true)))).
  { assert (Hl1 : length tp1 = length (gtopo g)) by apply (M2 0).
    assert (M1' : forall n, (In n (gdec g) -> tkey tp1 n = tkey (gtopo g) n) /\
                  (In n rest -> (tkey tp1 n = keep_mark <-> gobj g = Some n \/ In n (gcons g)))).
    { intros n. destruct (M2 n) as [_ M2n]. rewrite M2n. split; intros Hn.
      - specialize (Hkd n Hn). destruct (Z.leb_spec (Z.of_nat k) (tkey (gtopo g) n)); [lia|].
        now rewrite andb_false_r.
      - specialize (Hkr n Hn). destruct (Z.leb_spec (Z.of_nat k) (tkey (gtopo g) n)); [|lia].
        rewrite andb_true_r. rewrite <- (existsb_In n (gcons g)).
        destruct (gobj g) as [m|].
        + destruct (Nat.eqb_spec n m) as [-> | Hnm]; cbn [orb]; [tauto|].
          destruct (inb n (gcons g)); [tauto|]. unfold keep_mark. split; [lia|]. intros [E|E]; congruence.
        + cbn [orb]. destruct (inb n (gcons g)); [tauto|]. unfold keep_mark. split; [lia|].
          intros [E|E]; congruence. }
    destruct il.
    - unfold tp2. split; auto. intros n. split; [apply M1'|]. intros Hn. rewrite (proj2 (M1' n) Hn).
      intuition congruence.
    - unfold tp2. split; [destruct (mark_listen_spec (glisten g) rest tp1 0); auto; [|congruence]|].
      { intros m Hm. rewrite Hl1. apply Hlt; auto. }
      intros n. destruct (mark_listen_spec (glisten g) rest tp1 n) as [_ ->].
      { intros m Hm. rewrite Hl1. apply Hlt; auto. }
      split; intros Hn.
      + destruct (inb n rest) eqn:Ei; [apply existsb_In in Ei; exfalso; eauto|]. cbn. now apply M1'.
      + assert (Ei : inb n rest = true) by now apply existsb_In. rewrite Ei. cbn [andb].
        destruct (nth n (glisten g) false); [intuition|]. rewrite (proj2 (M1' n) Hn). intuition congruence. }
  destruct M3 as [Hl2 M3].
  pose proof (RI_fold g H rest Er tp2 rest [] [] (gsucc g) (galive g)) as HF.
  rewrite app_nil_r in HF. specialize (HF eq_refl (RI_start g rest tp2)).
  destruct (fold_left _ (rev rest) (gsucc g, galive g)) as [succ al]. destruct HF as [R HR].
  assert (HRn : forall n, In n R -> In n rest) by (apply (ri_R _ _ _ _ _ _ _ HR)).
  assert (HRd : forall n, In n (gdec g) -> ~ In n R) by (intros n Hn HnR; eauto).
  assert (Hfil : filter (fun n => nth n al false) (gnodes g) = filter (fun n => negb (inb n R)) (gnodes g)).
  { apply filter_ext_in. intros n Hn. rewrite (ri_al _ _ _ _ _ _ _ HR).
    apply (wf_al _ H) in Hn. now rewrite Hn. }
  set (g1 := Graph (filter (fun n => nth n al false) (gnodes g)) (gdec g) (gobj g) (gcons g) true (gpred g)
                   succ tp2 al (glisten g) (gremov g)).
  exists (reset_topological_sort g1), R. split.
  { unfold reset_topological_sort, g1. cbn. reflexivity. }
  assert (Hin' : forall n, In n (filter (fun n => negb (inb n R)) (gnodes g)) <-> In n (gnodes g) /\ ~ In n R).
  { intros n. rewrite filter_In, negb_true_iff, <- not_true_iff_false, existsb_In. tauto. }
  assert (Hdecf : filter (fun n => negb (inb n R)) (gdec g) = gdec g).
  { apply filter_noop. intros n Hn. apply negb_true_iff, not_true_iff_false. rewrite existsb_In. auto. }
  assert (Hkeepdec : forall n, In n (gnodes g) -> ~ In n (gdec g) -> In n rest).
  { intros n Hn Hd. rewrite Er, in_app_iff in Hn. tauto. }
  assert (Hroot : forall n, root g il n -> ~ In n R).
  { intros n [Hd | [Ho | [Hc | [Hli | Hr]]]] HnR.
    - eauto.
    - apply (ri_ok _ _ _ _ _ _ _ HR n HnR). apply M3; auto.
    - apply (ri_ok _ _ _ _ _ _ _ HR n HnR). apply M3; auto.
    - apply (ri_ok _ _ _ _ _ _ _ HR n HnR). apply M3; auto.
    - destruct (ri_ok _ _ _ _ _ _ _ HR n HnR). congruence. }
  assert (Hclosed : forall a b, reaches g a b -> In a R -> In b R).
  { intros a b Hab. induction Hab as [a b E|a|a b c H1 IH1 H2 IH2]; auto.
    intros Ha. apply (ri_cl _ _ _ _ _ _ _ HR a b Ha). now apply (edge_succ g a b H). }
  assert (Hk1 : forall n, tkey (gtopo (reset_topological_sort g1)) n =
                 if inb n (filter (fun n => negb (inb n R)) rest) then (-1)%Z else tkey tp2 n).
  { intros n. apply reset_tkey; auto; unfold g1; cbn [gnodes gdec gtopo].
    - rewrite Hfil, Er, filter_app, Hdecf. auto.
    - apply NoDup_filter, H.
    - intros m Hm. rewrite Hl2. apply Hlt. apply filter_In in Hm. tauto. }
  assert (Hl1' : length (gtopo (reset_topological_sort g1)) = length (gpred g)).
  { unfold reset_topological_sort, g1. cbn [gsorted negb gtopo gnodes gdec].
    rewrite fold_lset_length, Hl2. apply H. }
  assert (Eg : reset_topological_sort g1 = Graph (filter (fun n => negb (inb n R)) (gnodes g)) (gdec g) (gobj g)
      (gcons g) false (gpred g) succ (gtopo (reset_topological_sort g1)) al (glisten g) (gremov g)).
  { unfold reset_topological_sort, g1. cbn [gsorted negb gtopo gnodes gdec gobj gcons gpred gsucc galive glisten gremov].
    now rewrite Hfil. }
  revert Eg Hk1 Hl1'. generalize (gtopo (reset_topological_sort g1)) as tp3. intros tp3 -> Hk1 Hl1'.
  constructor; cbn -[tkey]; auto.
  - intros p Hp. apply Hin' in Hp. now apply (ri_succ _ _ _ _ _ _ _ HR).
  - intros n Hn. split; [auto|]. intros [r [Hr1 [Hr2 Hr3]]]. apply (Hroot r Hr2). eauto.
  - intros Ha n Hn HnR. destruct (in_dec Nat.eq_dec n (gdec g)) as [Hd|Hd].
    { exists n. repeat split; auto. left; auto. apply rt_refl. }
    pose proof (sorted_TL g rest H Hs Er Ha) as HT.
    destruct (ri_ex _ _ _ _ _ _ _ HR HT n) as [r [Hr1 [Hr2 Hr3]]]; auto.
    exists r. repeat split; auto. destruct Hr3 as [Hr3 | Hr3].
    + destruct (in_dec Nat.eq_dec r (gdec g)) as [Hrd|Hrd]; [left; auto|].
      unfold root. apply M3 in Hr3; auto. tauto.
    + unfold root; tauto.
  - destruct (wf_link _ H) as [L1 [L2 L3]].
    constructor; cbn -[tkey oget]; try apply H.
    + rewrite (ri_ls _ _ _ _ _ _ _ HR). apply H.
    + auto.
    + rewrite (ri_la _ _ _ _ _ _ _ HR). apply H.
    + apply NoDup_filter, H.
    + intros n. rewrite Hin'. unfold alive; cbn. rewrite (ri_al _ _ _ _ _ _ _ HR).
      rewrite andb_true_iff, negb_true_iff, <- not_true_iff_false, existsb_In, (wf_al _ H). tauto.
    + unfold linked; cbn -[oget]. split; [|split].
      * intros p n Hp Hn. apply Hin' in Hp, Hn. rewrite (ri_succ _ _ _ _ _ _ _ HR) by tauto.
        rewrite <- L1 by tauto. destruct Hn as [_ Hn].
        induction (oget (gsucc g) p) as [|x l IH]; cbn [filter]; auto.
        destruct (inb x R) eqn:Ex; cbn [negb].
        -- rewrite occ_cons, IH. destruct (Nat.eq_dec x n) as [-> | _]; auto.
           apply existsb_In in Ex. tauto.
        -- rewrite !occ_cons, IH. auto.
      * intros p n Hp. pose proof Hp as Hp'. apply Hin' in Hp'. rewrite (ri_succ _ _ _ _ _ _ _ HR) by tauto.
        intros Hn. apply filter_In in Hn. destruct Hn as [Hn1 Hn2]. apply Hin'. split.
        -- apply (L2 p); tauto.
        -- rewrite <- existsb_In. apply negb_true_iff in Hn2. congruence.
      * intros p n Hn Hp. apply Hin' in Hn. apply Hin'. assert (Hpi : In p (gnodes g)) by (apply (L3 p n); tauto).
        split; auto. intros HpR. apply Hn. apply (ri_cl _ _ _ _ _ _ _ HR p n HpR).
        apply (linked_in g p n H); tauto.
    + intros n Hn. apply Hin'. split; [now apply (wf_di _ H)|auto].
    + intros i d Hd. assert (Hdi : In d (gdec g)) by (eapply nth_error_In; eauto). rewrite Hk1.
      destruct (inb d (filter _ rest)) eqn:Ex.
      { apply existsb_In, filter_In in Ex. exfalso. apply (Hdisj d); tauto. }
      rewrite (proj1 (M3 d) Hdi). now apply (wf_dt _ H).
    + intros _ n Hn Hd. rewrite Hk1.
      assert (Ex : inb n (filter (fun n => negb (inb n R)) rest) = true).
      { apply existsb_In, filter_In. apply Hin' in Hn. split; [apply Hkeepdec; tauto|].
        apply negb_true_iff, not_true_iff_false. rewrite existsb_In. tauto. }
      now rewrite Ex.
    + discriminate.
    + intros n Hn. apply Hin'. split; [now apply (wf_obj _ H)|]. apply Hroot. unfold root; auto.
    + intros n Hn. apply Hin'. split; [now apply (wf_cons _ H)|]. apply Hroot. unfold root; auto.
Qed.
