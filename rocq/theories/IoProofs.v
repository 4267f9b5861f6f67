From Verif Require Import Base SliceModel GraphModel GraphSpec GraphProofs GraphProofs2 GraphProofs3 LockModel LockSpec LockProofs LockProofs2 LockProofs3 IoModel IoSpec.
From Coq Require Import Relations Permutation.

(** ** Header *)
Lemma header_ok data bytes : write_header data = Some bytes ->
  (Z.of_nat (length bytes) mod 64 = 0)%Z /\ forall tail, exists k, (1 <= k <= 64)%nat /\ read_header (bytes ++ tail) = Some (data ++ repeat 32%Z k, tail).
Proof.
  intros E. unfold write_header in E. set (len := Z.of_nat (length data)) in *.
  set (pad := (64 - (len + 4 + 2 + 4) mod 64)%Z) in *.
  assert (Hp : (1 <= pad <= 64)%Z) by (unfold pad; pose proof (Z.mod_pos_bound (len + 4 + 2 + 4) 64); lia).
  unfold pack32 in E. unfold spaces in *. rewrite repeat_length in E. rewrite Z2Nat.id in E by lia.
  destruct (Z.leb_spec 0 (len + pad)); [|discriminate E]. destruct (Z.ltb_spec (len + pad) 4294967296); [|discriminate E]. cbn [andb] in E.
  apply (f_equal (fun o => match o with Some b => b | None => [] end)) in E. cbv beta iota in E. rewrite <- E. clear E. set (n := (len + pad)%Z) in *. split.
  - rewrite !app_length, repeat_length. cbn [length magic version]. rewrite !Nat2Z.inj_add, Z2Nat.id by lia. fold len.
    change (Z.of_nat 4) with 4%Z. change (Z.of_nat 2) with 2%Z.
    assert (E : (4 + (2 + (4 + (len + pad))) = 64 * (1 + (len + 4 + 2 + 4) / 64))%Z).
    { unfold pad. pose proof (Z.div_mod (len + 4 + 2 + 4) 64). lia. }
    rewrite E. rewrite Z.mul_comm. apply Z_mod_mult.
  - intros tail. exists (Z.to_nat pad). split; [lia|].
     unfold read_header. rewrite <- !app_assoc. cbn [magic version app firstn skipn].
      destruct (list_eq_dec Z.eq_dec _ _) as [_|C]; [|now contradiction C].
      cbn [unpack32].
      assert (En : (n mod 256 + 256 * (n / 256 mod 256) + 65536 * (n / 65536 mod 256) + 16777216 * (n / 16777216 mod 256) = n)%Z).
      { assert (D1 : (n / 65536 = n / 256 / 256)%Z) by (rewrite Z.div_div by lia; reflexivity).
        assert (D2 : (n / 16777216 = n / 256 / 256 / 256)%Z) by (rewrite !Z.div_div by lia; reflexivity).
        rewrite D1, D2. pose proof (Z.div_mod n 256). pose proof (Z.div_mod (n / 256) 256). pose proof (Z.div_mod (n / 256 / 256) 256).
        assert (B : (n / 256 / 256 / 256 < 256)%Z).
        { rewrite !Z.div_div by lia. apply Z.div_lt_upper_bound; lia. }
        assert (B0 : (0 <= n / 256 / 256 / 256)%Z) by (repeat apply Z.div_pos; lia).
        rewrite (Z.mod_small (n / 256 / 256 / 256)) by lia. lia. }
      rewrite En. rewrite app_assoc.
      assert (L : Z.to_nat n = length (data ++ repeat 32%Z (Z.to_nat pad))).
      { rewrite app_length, repeat_length. unfold n, len. lia. }
      rewrite L, firstn_app, skipn_app, Nat.sub_diag, firstn_all, skipn_all. cbn [firstn skipn]. now rewrite app_nil_r.
Qed.
Lemma header_fits data : (Z.of_nat (length data) + 64 < 4294967296)%Z -> exists bytes, write_header data = Some bytes.
Proof.
  intros H. unfold write_header, pack32, spaces. rewrite repeat_length. pose proof (Z.mod_pos_bound (Z.of_nat (length data) + 4 + 2 + 4) 64).
  rewrite Z2Nat.id by lia. destruct (Z.leb_spec 0 (Z.of_nat (length data) + (64 - (Z.of_nat (length data) + 4 + 2 + 4) mod 64))); [|lia].
  destruct (Z.ltb_spec (Z.of_nat (length data) + (64 - (Z.of_nat (length data) + 4 + 2 + 4) mod 64)) 4294967296); [|lia]. cbn [andb]. eauto.
Qed.

(** ** Positions in a locked model *)
Section W.
Context {S : Type}.
Variable ninit : nat -> list S -> S.
Variable m : model S.
Hypothesis L : LI ninit m.
Hypothesis Lk : is_locked m = true.
Notation D := (length (gdec (mg m))).
Definition pos (n : nat) : nat := Z.to_nat (topo m n).

Lemma w_wf : WF (mg m). Proof. apply inc_wf, L. Qed.
Lemma w_s : gsorted (mg m) = true. Proof. rewrite (li_s _ _ L). exact Lk. Qed.
Lemma topo_at i n : at_pos m i n -> topo m n = Z.of_nat i.
Proof. intros H. destruct (wf_s _ w_wf w_s) as [_ [E _]]. now apply E. Qed.
Lemma pos_at i n : at_pos m i n -> pos n = i.
Proof. intros H. unfold pos. rewrite (topo_at i n H). apply Nat2Z.id. Qed.
Lemma at_in n : In n (gnodes (mg m)) -> at_pos m (pos n) n.
Proof. intros H. apply In_nth_error in H as [i H]. now rewrite (pos_at i n H). Qed.
Lemma topo_in n : In n (gnodes (mg m)) -> topo m n = Z.of_nat (pos n).
Proof. intros H. apply topo_at. now apply at_in. Qed.
Lemma at_lt i n : at_pos m i n -> i < length (gnodes (mg m)).
Proof. intros H. apply nth_error_Some. unfold at_pos in H. congruence. Qed.
Lemma at_dec i n : at_pos m i n -> (In n (gdec (mg m)) <-> i < D).
Proof.
  intros H. destruct (wf_s _ w_wf w_s) as [[rest E] _]. split.
  - intros Hd. apply In_nth_error in Hd as [k Hk]. assert (K : k < D) by (apply nth_error_Some; congruence).
    assert (at_pos m k n) by (unfold at_pos; rewrite E, nth_error_app1; auto).
    rewrite <- (pos_at i n H), (pos_at k n) by auto. exact K.
  - intros Hi. unfold at_pos in H. rewrite E, nth_error_app1 in H by auto. eapply nth_error_In; eauto.
Qed.
Lemma at_pred i n p : at_pos m i n -> In p (oget (gpred (mg m)) n) -> In p (gnodes (mg m)) /\ pos p < i.
Proof.
  intros H Hp. assert (Hn : In n (gnodes (mg m))) by (eapply nth_error_In; exact H).
  assert (Ed : edge (mg m) p n) by (split; auto). destruct (edge_in _ _ _ w_wf Ed) as [Hpn _]. split; auto.
  assert (A := at_in p Hpn). eapply (edge_lt (mg m) w_wf w_s p n); eauto using tidx_nth, w_wf, w_s. apply Inc_acyclic, L.
Qed.

(** ** Reading the nodes *)
Variable ninit' : nat -> list S -> S.
Variables kind kind' : nat -> nat.
Variable decides : nat -> bool.
Hypothesis Hk : forall n, In n (gnodes (mg m)) -> (decides (kind n) = true <-> In n (gdec (mg m))).

Record Built (j : nat) (obj : option nat) (cons : list nat) (m' : model S) : Prop := {
  bu_li : LI ninit' m';
  bu_n : gnodes (mg m') = seq 0 j;
  bu_d : gdec (mg m') = seq 0 (Nat.min j D);
  bu_o : gobj (mg m') = obj;
  bu_c : gcons (mg m') = cons;
  bu_s : gsorted (mg m') = false;
  bu_l : length (gpred (mg m')) = j;
  bu_p : forall i n, i < j -> at_pos m i n -> oget (gpred (mg m')) i = map pos (oget (gpred (mg m)) n);
  bu_k : mlocks m' = 0;
  bu_h : exists ops, m_hist ninit' kind' ops m' }.

Lemma perform_hist m' o m'' : (exists ops, m_hist ninit' kind' ops m') -> fits m' o -> perform ninit' kind' m' o = Ok m'' -> exists ops, m_hist ninit' kind' ops m''.
Proof.
  intros [ops H] Hf E. unfold perform in E. destruct (m_step ninit' kind' m' o) as [[m1 [|]]|] eqn:Es; try discriminate E.
  assert (m1 = m'') by congruence. subst m1. exists (ops ++ [o]). eapply h_step; eauto.
Qed.

Lemma bu_alive j o c m' i : Built j o c m' -> i < j -> alive (mg m') i = true.
Proof. intros B Hi. apply (wf_al _ (inc_wf _ (li_inc _ _ (bu_li _ _ _ _ B)))). rewrite (bu_n _ _ _ _ B). apply in_seq. lia. Qed.
Lemma bu_at j o c m' i : Built j o c m' -> i < j -> node_at m' (Z.of_nat i) = Ok i.
Proof.
  intros B Hi. unfold node_at. destruct (Z.ltb_spec (Z.of_nat i) 0); [lia|]. rewrite Nat2Z.id, (bu_n _ _ _ _ B).
  rewrite (nth_error_nth' _ 0) by (rewrite seq_length; lia). now rewrite seq_nth by lia.
Qed.

Lemma preds_ok j o c m' ps : Built j o c m' -> (forall p, In p ps -> In p (gnodes (mg m)) /\ pos p < j) ->
  read_preds m' (Z.of_nat j) (map (topo m) ps) = Ok (map pos ps).
Proof.
  intros B. induction ps as [|p ps IH]; intros Hp; [reflexivity|]. cbn [map read_preds].
  destruct (Hp p (or_introl eq_refl)) as [Hn Hl]. rewrite (topo_in p Hn).
  destruct (Z.leb_spec 0 (Z.of_nat (pos p))); [|lia]. destruct (Z.ltb_spec (Z.of_nat (pos p)) (Z.of_nat j)); [|lia]. cbn [andb negb].
  rewrite (bu_at j o c m' _ B Hl). cbn [rbind]. rewrite IH by (intros q Hq; apply Hp; now right). reflexivity.
Qed.

Lemma line_ok j n m' : Built j None [] m' -> mstates m' = [] -> at_pos m j n ->
  exists m'', read_line ninit' kind' decides (m', Z.of_nat j) (kind n, (topo m n, map (topo m) (oget (gpred (mg m)) n))) = Ok (m'', Z.of_nat (j + 1)) /\
    Built (j + 1) None [] m'' /\ mstates m'' = [].
Proof.
  intros B Es A. assert (Hn : In n (gnodes (mg m))) by (eapply nth_error_In; exact A).
  unfold read_line. rewrite (topo_at j n A), Z.eqb_refl. cbn [negb].
  rewrite (preds_ok j None [] m' _ B) by (intros p Hp; now apply (at_pred j n)). cbn [rbind].
  pose proof (li_inc _ _ (bu_li _ _ _ _ B)) as Hi.
  assert (New : forall dec ps op, (dec = true -> ps = []) -> dec = (j <? D) -> op = (if dec then MDecision else MAdd ps) -> ps = map pos (oget (gpred (mg m)) n) ->
    exists m'', perform ninit' kind' m' op = Ok m'' /\ Built (j + 1) None [] m'' /\ mstates m'' = []).
  { intros dec ps op Hd Edec -> Eps.
    assert (Hal : forallb (alive (mg m')) ps = true).
    { apply forallb_forall. intros q Hq. rewrite Eps in Hq. apply in_map_iff in Hq as [p [<- Hp]]. destruct (at_pred j n p A Hp). now apply (bu_alive j None [] m'). }
    assert (Eg : exists g, emplace_node (mg m') dec true ps = Ok g) by (unfold emplace_node; rewrite (bu_s _ _ _ _ B), Hal; cbn [negb]; eauto).
    destruct Eg as [g Eg].
    assert (Es' : m_step ninit' kind' m' (if dec then MDecision else MAdd ps) = Some (Model g (mlocks m') (mstates m'), true)).
    { destruct dec; cbn [m_step g_step]; [rewrite (Hd eq_refl) in Eg|]; rewrite Eg; reflexivity. }
    exists (Model g (mlocks m') (mstates m')). unfold perform. rewrite Es'. split; auto. split; auto.
    assert (L' : LI ninit' (Model g (mlocks m') (mstates m'))).
    { eapply (LI_step ninit' kind' m' _ _ true); [apply B| |exact Es']. destruct dec; exact I. }
    unfold emplace_node in Eg. rewrite (bu_s _ _ _ _ B), Hal in Eg. cbn [negb] in Eg. injection Eg as Eg.
    rewrite (bu_l _ _ _ _ B), (bu_n _ _ _ _ B), (bu_d _ _ _ _ B), (bu_o _ _ _ _ B), (bu_c _ _ _ _ B) in Eg.
    constructor; auto; rewrite <- Eg; cbn [mg gnodes gdec gobj gcons gsorted gpred mlocks].
    - rewrite Nat.add_1_r, seq_S. reflexivity.
    - rewrite Edec. destruct (Nat.ltb_spec j D).
      + rewrite !Nat.min_l by lia. rewrite Nat.add_1_r, seq_S. reflexivity.
      + rewrite !Nat.min_r by lia. reflexivity.
    - reflexivity.
    - reflexivity.
    - reflexivity.
    - rewrite app_length, (bu_l _ _ _ _ B). reflexivity.
    - intros i n' Hlt A'. rewrite oget_snoc. rewrite (bu_l _ _ _ _ B). destruct (Nat.eqb_spec i j) as [->|Hne].
      + unfold at_pos in *. assert (n' = n) by congruence. now subst.
      + apply (bu_p _ _ _ _ B); auto. lia.
    - apply B.
    - apply (perform_hist m' (if dec then MDecision else MAdd ps)); [apply B|destruct dec; exact I|]. unfold perform. rewrite Es', Eg. reflexivity. }
  destruct (decides (kind n)) eqn:Ed.
  - apply (Hk n Hn) in Ed. rewrite (wf_dp _ w_wf n Ed). cbn [map].
    destruct (New true [] MDecision) as (m'' & E & B' & S'); auto.
    + symmetry. apply Nat.ltb_lt. now apply (at_dec j n A).
    + now rewrite (wf_dp _ w_wf n Ed).
    + rewrite E. cbn [rbind]. exists m''. split; auto. f_equal. f_equal. lia.
  - assert (Nd : ~ In n (gdec (mg m))) by (intros C; apply (Hk n Hn) in C; congruence).
    destruct (New false (map pos (oget (gpred (mg m)) n)) (MAdd (map pos (oget (gpred (mg m)) n)))) as (m'' & E & B' & S'); auto.
    + discriminate.
    + symmetry. apply Nat.ltb_ge. destruct (Nat.le_gt_cases D j); auto. exfalso. apply Nd. now apply (at_dec j n A).
    + rewrite E. cbn [rbind]. exists m''. split; auto. f_equal. f_equal. lia.
Qed.

Lemma lines_ok : forall l j m', Built j None [] m' -> mstates m' = [] -> (forall i n, nth_error l i = Some n -> at_pos m (j + i) n) ->
  exists m'', rfold (read_line ninit' kind' decides) (m', Z.of_nat j)
      (combine (map kind l) (map (fun n => (topo m n, map (topo m) (oget (gpred (mg m)) n))) l)) = Ok (m'', Z.of_nat (j + length l)) /\
    Built (j + length l) None [] m'' /\ mstates m'' = [].
Proof.
  induction l as [|n l IH]; intros j m' B Es Hl; cbn [map combine rfold length].
  - rewrite Nat.add_0_r. eauto.
  - assert (A : at_pos m j n) by (rewrite <- (Nat.add_0_r j); now apply Hl).
    destruct (line_ok j n m' B Es A) as (m1 & E & B1 & E1). rewrite E.
    destruct (IH (j + 1) m1 B1 E1) as (m2 & E2 & B2 & S2).
    + intros i k Hi. rewrite <- Nat.add_assoc. change (1 + i) with (Datatypes.S i). now apply Hl.
    + exists m2. rewrite <- Nat.add_assoc in *. auto.
Qed.

(** ** Objective and constraints *)
Lemma obj_ok j m' i : Built j None [] m' -> i < j -> exists m'', perform ninit' kind' m' (MObjective i) = Ok m'' /\ Built j (Some i) [] m'' /\ mstates m'' = mstates m'.
Proof.
  intros B Hi. unfold perform.
  assert (E : m_step ninit' kind' m' (MObjective i) = Some (Model (Graph (gnodes (mg m')) (gdec (mg m')) (Some i) (gcons (mg m')) (gsorted (mg m')) (gpred (mg m')) (gsucc (mg m'))
                              (gtopo (mg m')) (galive (mg m')) (glisten (mg m')) (gremov (mg m'))) (mlocks m') (mstates m'), true)).
  { cbn [m_step g_step]. unfold set_objective. rewrite (bu_alive j None [] m' i B Hi). reflexivity. }
  rewrite E. eexists. split; [reflexivity|]. split; auto.
  assert (L' := LI_step ninit' kind' m' (MObjective i) _ true (bu_li _ _ _ _ B) I E).
  assert (H' := perform_hist m' (MObjective i) _ (bu_h _ _ _ _ B) I ltac:(unfold perform; rewrite E; reflexivity)). destruct B. constructor; auto.
Qed.
Lemma con_ok j o c m' i : Built j o c m' -> i < j -> exists m'', perform ninit' kind' m' (MConstraint i) = Ok m'' /\ Built j o (c ++ [i]) m'' /\ mstates m'' = mstates m'.
Proof.
  intros B Hi. unfold perform.
  assert (E : m_step ninit' kind' m' (MConstraint i) = Some (Model (Graph (gnodes (mg m')) (gdec (mg m')) (gobj (mg m')) (gcons (mg m') ++ [i]) (gsorted (mg m')) (gpred (mg m')) (gsucc (mg m'))
                              (gtopo (mg m')) (galive (mg m')) (glisten (mg m')) (gremov (mg m'))) (mlocks m') (mstates m'), true)).
  { cbn [m_step g_step]. unfold add_constraint. rewrite (bu_alive j o c m' i B Hi). reflexivity. }
  rewrite E. eexists. split; [reflexivity|]. split; auto.
  assert (L' := LI_step ninit' kind' m' (MConstraint i) _ true (bu_li _ _ _ _ B) I E).
  assert (H' := perform_hist m' (MConstraint i) _ (bu_h _ _ _ _ B) I ltac:(unfold perform; rewrite E; reflexivity)). destruct B. constructor; auto. cbn [mg gcons]. congruence.
Qed.
Lemma cons_ok j o : forall l c m', Built j o c m' -> (forall i, In i l -> i < j) ->
  exists m'', rfold (fun m id => rbind (node_at m id) (fun n => perform ninit' kind' m (MConstraint n))) m' (map Z.of_nat l) = Ok m'' /\
    Built j o (c ++ l) m'' /\ mstates m'' = mstates m'.
Proof.
  induction l as [|i l IH]; intros c m' B Hl; cbn [map rfold].
  - rewrite app_nil_r. eauto.
  - assert (Hi := Hl i (or_introl eq_refl)). rewrite (bu_at j o c m' i B Hi). cbn [rbind].
    destruct (con_ok j o c m' i B Hi) as (m1 & E & B1 & S1). rewrite E.
    destruct (IH (c ++ [i]) m1 B1) as (m2 & E2 & B2 & S2); [intros; apply Hl; now right|].
    exists m2. rewrite <- app_assoc in B2. split; auto. split; auto. congruence.
Qed.

(** ** States *)
Lemma sets_ok j o c m' st n i x : Built j o c m' -> n < j -> n < D -> nth_error (mstates m') i = Some st ->
  exists m'' st', perform ninit' kind' m' (MSet n i (Some x)) = Ok m'' /\ Built j o c m'' /\ mg m'' = mg m' /\ mstates m'' = lset i st' (mstates m') /\
    forall k, k < j -> state_of (mg m') st' k = if k =? n then Some x else state_of (mg m') st k.
Proof.
  intros B Hn Hd Hst. pose proof (li_inc _ _ (bu_li _ _ _ _ B)) as Hi. pose proof (inc_wf _ Hi) as H.
  assert (Hin : In n (gdec (mg m'))) by (rewrite (bu_d _ _ _ _ B); apply in_seq; lia).
  destruct (set_spec ninit' m' n i (Some x) st (bu_li _ _ _ _ B) Hin Hst) as (st' & E & L' & E1 & E2).
  eexists. exists st'. unfold perform. cbn [m_step].
  assert (X : existsb (Nat.eqb n) (gdec (mg m')) = true) by (apply existsb_In; auto). rewrite X, E. split; [reflexivity|].
  split.
  { assert (H' := perform_hist m' (MSet n i (Some x)) _ (bu_h _ _ _ _ B) I ltac:(unfold perform; cbn [m_step]; rewrite X, E; reflexivity)). destruct B; constructor; auto. } split; [reflexivity|]. split; [reflexivity|].
  intros k Hkj. destruct (Nat.eqb_spec k n) as [->|Hne]; auto.
  assert (Hkn : In k (gnodes (mg m'))) by (rewrite (bu_n _ _ _ _ B); apply in_seq; lia).
  destruct (E2 k Hkn Hne) as [R1 R2].
  destruct (Nat.lt_ge_cases k D) as [Hkd|Hkd].
  - apply R2. intros R. destruct (reaches_nondec _ _ _ H R) as [C|C]; [congruence|]. apply C. rewrite (bu_d _ _ _ _ B). apply in_seq. lia.
  - assert (Nd : ~ In k (gdec (mg m'))) by (rewrite (bu_d _ _ _ _ B), in_seq; lia).
    rewrite !(nondec_none ninit' (mg m') _ k H); auto; rewrite (bu_s _ _ _ _ B); discriminate.
Qed.

Variable F : nat -> nat -> option S.
Variable num : nat.
(** After some of the states were read. *)
Definition Loaded (g : graph) (done : nat -> nat -> bool) (sts : list (list (option S))) (j : nat) : Prop :=
  length sts = num /\ forall i st k, nth_error sts i = Some st -> k < j -> state_of g st k = if (k <? D) && done k i then F k i else None.

Lemma load_row look j o c n : n < j -> n < D -> (forall m i, Built j o c m -> i < num -> look m n i = match F n i with Some x => Some (n, i, x) | None => None end) ->
  forall l done m', Built j o c m' -> NoDup l -> (forall i, In i l -> i < num /\ done n i = false) -> Loaded (mg m') done (mstates m') j ->
  exists m'', rfold (fun m i => match look m n i : option (nat * nat * S) with
        | Some (_, _, x) => perform ninit' kind' m (MSet n i (Some x))
        | None => Ok m
        end) m' l = Ok m'' /\ Built j o c m'' /\ mg m'' = mg m' /\
    Loaded (mg m'') (fun k i => done k i || (Nat.eqb k n && existsb (Nat.eqb i) l)) (mstates m'') j.
Proof.
  intros Hn Hd Hlook. induction l as [|i l IH]; intros done m' B Nd Hl Lo; cbn [rfold].
  - exists m'. split; auto. split; auto. split; auto. destruct Lo as [Ln Lo]. split; auto. intros i st k Hs Hkj. rewrite (Lo i st k Hs Hkj).
    cbn [existsb]. now rewrite andb_false_r, orb_false_r.
  - inversion Nd as [|? ? Ni Nd']; subst. destruct (Hl i (or_introl eq_refl)) as [Hin Hdi]. rewrite Hlook by auto. pose proof Lo as [Ln Lo'].
    assert (St : exists m1, match F n i with Some x => perform ninit' kind' m' (MSet n i (Some x)) | None => Ok m' end = Ok m1 /\ Built j o c m1 /\ mg m1 = mg m' /\
      Loaded (mg m1) (fun k i' => done k i' || (Nat.eqb k n && Nat.eqb i' i)) (mstates m1) j).
    { destruct (F n i) as [x|] eqn:EF.
      - destruct (nth_error (mstates m') i) as [st|] eqn:Est; [|apply nth_error_None in Est; lia].
        destruct (sets_ok j o c m' st n i x B Hn Hd Est) as (m1 & st' & E & B1 & G1 & S1 & K1).
        exists m1. split; auto. split; auto. split; auto. rewrite G1, S1. split; [now rewrite lset_length|].
        intros i' s k Hs Hkj. rewrite nth_error_lset in Hs.
        destruct (Nat.eqb_spec i i') as [<-|Hne].
        + cbn [andb] in Hs. destruct (Nat.ltb_spec i (length (mstates m'))); [|lia]. assert (s = st') by congruence. subst s.
          rewrite (K1 k Hkj), (Lo' i st k Est Hkj), Nat.eqb_refl, andb_true_r. destruct (Nat.eqb_spec k n) as [->|Hne].
          * rewrite orb_true_r, andb_true_r. destruct (Nat.ltb_spec n D); [auto|lia].
          * now rewrite orb_false_r.
        + cbn [andb] in Hs. rewrite (Lo' i' s k Hs Hkj). destruct (Nat.eqb_spec i' i); [congruence|]. now rewrite andb_false_r, orb_false_r.
      - exists m'. split; auto. split; auto. split; auto. split; auto. intros i' s k Hs Hkj. rewrite (Lo' i' s k Hs Hkj).
        destruct (Nat.eqb_spec k n) as [->|]; [|now rewrite andb_false_l, orb_false_r]. destruct (Nat.eqb_spec i' i) as [->|]; [|now rewrite andb_false_r, orb_false_r].
        rewrite Hdi, EF. now destruct (_ && _), (_ && _). }
    destruct St as (m1 & E1 & B1 & G1 & L1).
    assert (Q : match match F n i with Some x => Some (n, i, x) | None => None end with Some (_, _, x) => perform ninit' kind' m' (MSet n i (Some x)) | None => Ok m' end = Ok m1)
      by (rewrite <- E1; now destruct (F n i)).
    rewrite Q. destruct (IH (fun k i' => done k i' || (Nat.eqb k n && Nat.eqb i' i)) m1 B1 Nd') as (m2 & E2 & B2 & G2 & L2); auto.
    + intros i' Hi'. destruct (Hl i' (or_intror Hi')). split; auto. rewrite H0. cbn [orb]. destruct (Nat.eqb_spec i' i) as [->|]; [contradiction|]. apply andb_false_r.
    + exists m2. split; auto. split; auto. split; [congruence|]. destruct L2 as [Q1 Q2]. split; auto. intros i' s k Hs Hkj. rewrite (Q2 i' s k Hs Hkj). cbn [existsb].
      now destruct (done k i'), (k =? n), (i' =? i).
Qed.

Lemma load_all look j o c : D <= j -> (forall m n i, Built j o c m -> n < D -> i < num -> look m n i = match F n i with Some x => Some (n, i, x) | None => None end) ->
  forall l done m', Built j o c m' -> NoDup l -> (forall n, In n l -> n < D) -> (forall n i, In n l -> done n i = false) -> Loaded (mg m') done (mstates m') j ->
  exists m'', rfold (fun m n => rfold (fun m i => match look m n i : option (nat * nat * S) with
        | Some (_, _, x) => perform ninit' kind' m (MSet n i (Some x))
        | None => Ok m
        end) m (seq 0 num)) m' l = Ok m'' /\ Built j o c m'' /\ mg m'' = mg m' /\
    Loaded (mg m'') (fun k i => done k i || existsb (Nat.eqb k) l) (mstates m'') j.
Proof.
  intros Hj Hlook. induction l as [|n l IH]; intros done m' B Nd Hl Hdn Lo; cbn [rfold].
  - exists m'. split; auto. split; auto. split; auto. destruct Lo as [Ln Lo]. split; auto. intros i st k Hs Hkj. rewrite (Lo i st k Hs Hkj).
    cbn [existsb]. now rewrite orb_false_r.
  - inversion Nd as [|? ? Ni Nd']; subst. assert (Hnd := Hl n (or_introl eq_refl)).
    destruct (load_row look j o c n ltac:(lia) Hnd (fun m i B Hi => Hlook m n i B Hnd Hi) (seq 0 num) done m' B (seq_NoDup _ _)) as (m1 & E1 & B1 & G1 & L1); auto.
    { intros i Hi. apply in_seq in Hi. split; [lia|]. apply Hdn. now left. }
    rewrite E1. destruct (IH (fun k i => done k i || (Nat.eqb k n && existsb (Nat.eqb i) (seq 0 num))) m1 B1 Nd') as (m2 & E2 & B2 & G2 & L2); auto.
    + intros k Hkl. apply Hl. now right.
    + intros k i Hkl. rewrite (Hdn k i (or_intror Hkl)). cbn [orb]. destruct (Nat.eqb_spec k n) as [->|]; [contradiction|reflexivity].
    + exists m2. split; auto. split; auto. split; [congruence|]. destruct L2 as [Q1 Q2]. split; auto. intros i st k Hs Hkj. rewrite (Q2 i st k Hs Hkj). cbn [existsb].
      assert (X : existsb (Nat.eqb i) (seq 0 num) = true).
      { apply existsb_In, in_seq. assert (i < length (mstates m2)) by (apply nth_error_Some; congruence). lia. }
      rewrite X. now destruct (done k i), (k =? n).
Qed.
End W.
