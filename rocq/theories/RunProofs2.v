(** Whole models: the contracts of C17 for the graph of a model of the front end. *)
From Coq Require Import Relations Permutation.
From Verif Require Import Base Num SliceModel ShapeModel ShapeSpec StateDataModel NodeSpec ViewModel GraphModel GraphSpec GraphProofs GraphProofs2 GraphProps ProposeModel ProposeSpec ProposeProofs ProposeProofs2 ProposeProps
  BoundsModel DisjointSpec GroupModel GroupSpec GroupProofs GroupProofs2 GroupProofs3 PyModel PySpec GenSpec PyProofs RunModel RunSpec RunProofs.
Set Implicit Arguments.

(** Finite choice. *)
Lemma choose {A} (P : nat -> A -> Prop) (a0 : A) n : (forall x, x < n -> exists v, P x v) -> exists f, forall x, x < n -> P x (f x).
Proof.
  induction n as [|n IH]; intros H; [exists (fun _ => a0); intros x Hx; lia|].
  destruct IH as [f Hf]; [intros x Hx; apply H; lia|]. destruct (H n) as [v Hv]; [lia|].
  exists (fun x => if x =? n then v else f x). intros x Hx. destruct (Nat.eqb_spec x n) as [->|]; [exact Hv|]. apply Hf. lia.
Qed.

Section Whole.
Variables strict dbg : bool.
Variable m : pym.
Hypothesis wf : all_sound strict dbg m.
Hypothesis tot : total m.
Variable g : graph.
Hypothesis L : locked m g.
Notation N := (nodes strict dbg m).
Notation G := (promise_at m).
Notation F := (fun_at m).
Notation start := (fun n => r_start (node_at strict dbg m n)).
Notation step := (fun n => r_move (node_at strict dbg m n)).
Notation count := (length (p_syms m)).

Lemma sym_of x : In x (gnodes g) -> exists s, nth_error (p_syms m) x = Some s /\ oget (gpred g) x = s_pred s /\ is_decision g x = source_cls (s_cls s).
Proof.
  intros Hx. destruct L as (_ & _ & _ & H1 & H2). apply H1 in Hx. destruct (nth_error (p_syms m) x) as [s|] eqn:E; [|apply nth_error_None in E; lia].
  exists s. split; [reflexivity|]. now apply H2.
Qed.
Lemma node_at_sym x s : nth_error (p_syms m) x = Some s -> node_at strict dbg m x = node_of strict dbg m s.
Proof. intros H. unfold node_at. now rewrite H. Qed.
Lemma shape_node y : y < count -> vn_shape (N y) = shape_at m y.
Proof.
  intros Hy. destruct (nth_error (p_syms m) y) as [s|] eqn:E; [|apply nth_error_None in E; lia]. unfold nodes. rewrite (node_at_sym _ E). unfold shape_at. rewrite E.
  apply (sound_good wf (sound_at wf _ E)).
Qed.
Theorem whole_wf : wf_model qeqb N G F start step g.
Proof.
  destruct L as (Hh & Hs & Ha & Hn & Hp). split; [exact Hh|]. split; [exact Hs|]. split; [exact Ha|].
  intros x Hx. destruct (sym_of _ Hx) as (s & E & Ep & Ed). pose proof (sound_at wf _ E) as Sd. pose proof (sound_good wf Sd) as (_ & G2 & G3).
  assert (EN : N x = r_node (node_of strict dbg m s)) by (unfold nodes; now rewrite (node_at_sym _ E)). split.
  - rewrite EN, Ep, G2. unfold shapes_of. apply map_ext_in. intros y Hy. symmetry. apply shape_node. destruct Sd as (Sp & _). rewrite Forall_forall in Sp. now apply Sp.
  - rewrite Ed. unfold nodes. unfold promise_at at 1 3, fun_at. rewrite E. rewrite Ep. rewrite (node_at_sym _ E). destruct (source_cls (s_cls s)); [apply G3|exact G3].
Qed.
(** What the decisions hold: the values of arrays, and the contents of the disjoint collections in order. *)
Definition holds (s : sym) (v : list num) : Prop :=
  match s_cls s with
  | KLists z k => exists ls, v = wire ls /\ lgood (Z.to_nat z) k ls
  | KBits z k => exists rows, v = wire rows /\ bits_partition (Z.to_nat z) k rows
  | c => allowed c (s_shape s) v
  end.
Definition proper (DV : nat -> list num) : Prop := forall x s, nth_error (p_syms m) x = Some s -> source_cls (s_cls s) = true -> holds s (DV x).
Definition dv_of (DV : nat -> list num) (x : nat) : list num :=
  match nth_error (p_syms m) x with
  | Some s => match s_cls s with
              | KListOf main _ _ i | KBitOf main _ _ i => match unwire i (DV main) with Some v => v | None => [] end
              | _ => DV x
              end
  | None => []
  end.
Lemma bits_rows n k rows i v : bits_partition n k rows -> nth_error rows i = Some v -> length v = n /\ Forall (whole 0 1) v.
Proof.
  intros (w & Hw & _ & ->) E. rewrite nth_error_map in E. destruct (nth_error (seq 0 k) i) as [j|]; [|discriminate]. injection E as <-. split; [unfold indicator; now rewrite map_length|apply (indicator_D 1); lia].
Qed.
Lemma bits_count n k rows : bits_partition n k rows -> length rows = k.
Proof. intros (w & _ & _ & ->). now rewrite map_length, seq_length. Qed.
Lemma listof_dv DV y x z k i : proper DV -> option_map s_cls (nth_error (p_syms m) y) = Some (KListOf x z k i) ->
  exists ls v, DV x = wire ls /\ lgood (Z.to_nat z) k ls /\ nth_error ls i = Some v /\ dv_of DV y = v /\ Forall (whole 0 (Z.of_nat (Z.to_nat z) - 1)) v.
Proof.
  intros P H. destruct (nth_error (p_syms m) y) as [s|] eqn:E; [|discriminate]. injection H as H. destruct (sound_at wf _ E) as (_ & _ & S). rewrite H in S.
  destruct (s_pred s) as [|? [|]]; try contradiction. destruct S as (-> & Hm & Hi & _). destruct (main_at wf _ Hm eq_refl) as (t & Et & Ect & _).
  pose proof (P x t Et) as Hh. unfold holds in Hh. rewrite Ect in Hh. destruct (Hh eq_refl) as (ls & Els & G). destruct (nth_error ls i) as [v|] eqn:Ei; [|apply nth_error_None in Ei; destruct G; lia].
  exists ls, v. split; [exact Els|]. split; [exact G|]. split; [exact Ei|]. split.
  - unfold dv_of. rewrite E, H, Els, unwire_nth, Ei. reflexivity.
  - pose proof (@lgood_D (Z.to_nat z) k ltac:(lia) ls G) as Hd. rewrite Forall_forall in Hd. apply Hd. eapply nth_error_In; eauto.
Qed.
Lemma bitof_dv DV y x z k i : proper DV -> option_map s_cls (nth_error (p_syms m) y) = Some (KBitOf x z k i) ->
  exists rows v, DV x = wire rows /\ bits_partition (Z.to_nat z) k rows /\ nth_error rows i = Some v /\ dv_of DV y = v /\ length v = Z.to_nat z /\ Forall (whole 0 1) v.
Proof.
  intros P H. destruct (nth_error (p_syms m) y) as [s|] eqn:E; [|discriminate]. injection H as H. destruct (sound_at wf _ E) as (_ & _ & S). rewrite H in S.
  destruct (s_pred s) as [|? [|]]; try contradiction. destruct S as (-> & Hm & Hi & _). destruct (main_at wf _ Hm eq_refl) as (t & Et & Ect & _).
  pose proof (P x t Et) as Hh. unfold holds in Hh. rewrite Ect in Hh. destruct (Hh eq_refl) as (ls & Els & G). destruct (nth_error ls i) as [v|] eqn:Ei; [|apply nth_error_None in Ei; rewrite (bits_count G) in Ei; lia].
  exists ls, v. split; [exact Els|]. split; [exact G|]. split; [exact Ei|]. split; [|apply (bits_rows _ G Ei)].
  unfold dv_of. rewrite E, H, Els, unwire_nth, Ei. reflexivity.
Qed.
Lemma dv_of_domain DV : proper DV -> in_domain m (dv_of DV).
Proof.
  intros P x s E. split.
  - intros Hc. unfold dv_of. rewrite E. specialize (P x s E). unfold holds in P. destruct (s_cls s); try discriminate; try (exact (P eq_refl)); exact I.
  - specialize (P x s E) as Px. unfold holds in Px. destruct (s_cls s) eqn:Ec; try exact I; destruct (Px eq_refl) as (ls & Els & G).
    + exists ls. split; [apply G|]. split; [apply G|]. intros y i Hy. destruct (listof_dv _ P Hy) as (ls' & v & E1 & _ & E2 & E3 & _).
      destruct (nth_error ls i) as [w|] eqn:Ew.
      * rewrite Els in E1. rewrite <- unwire_nth, E1, unwire_nth in Ew. congruence.
      * rewrite Els in E1. rewrite <- unwire_nth, E1, unwire_nth in Ew. congruence.
    + exists ls. split; [exact G|]. intros y i Hy. destruct (bitof_dv _ P Hy) as (ls' & v & E1 & _ & E2 & E3 & _).
      rewrite Els in E1. rewrite <- unwire_nth, E1, unwire_nth. congruence.
Qed.
(** The value of a part. *)
Lemma part_of x s : nth_error (p_syms m) x = Some s -> decided_cls (s_cls s) = true -> source_cls (s_cls s) = false -> exists y, s_pred s = [y] /\
  exists t, nth_error (p_syms m) y = Some t /\ main_cls (s_cls t) = true /\
  ((exists z k i, s_cls s = KListOf y z k i /\ s_cls t = KLists z k) \/ (exists z k i, s_cls s = KBitOf y z k i /\ s_cls t = KBits z k)).
Proof.
  intros E H1 H2. destruct (sound_at wf _ E) as (_ & _ & S). destruct (s_cls s) eqn:Ec; try discriminate; (destruct (s_pred s) as [|y [|]]; try contradiction); destruct S as (-> & Hm & _);
    destruct (main_at wf _ Hm eq_refl) as (t & Et & Ect & _); eexists; (split; [reflexivity|]); exists t; rewrite Ect; (split; [exact Et|]); (split; [reflexivity|]); [left|right]; eauto 6.
Qed.
Lemma part_val DV x s : proper DV -> nth_error (p_syms m) x = Some s -> decided_cls (s_cls s) = true -> source_cls (s_cls s) = false ->
  fun_of m s (map DV (s_pred s)) = Some (dv_of DV x).
Proof.
  intros P E H1 H2. destruct (part_of _ E H1 H2) as (y & -> & t & Et & _ & [(z & k & i & Ec & Ect)|(z & k & i & Ec & Ect)]); unfold fun_of; rewrite Ec; cbn [map part_fun].
  - destruct (@listof_dv DV x y z k i P) as (ls & v & E1 & _ & E2 & E3 & E4); [rewrite E; cbn; congruence|]. rewrite E1, unwire_nth, E2, E3. cbn [andb]. apply whole_all in E4. now rewrite E4.
  - destruct (@bitof_dv DV x y z k i P) as (ls & v & E1 & _ & E2 & E3 & E4 & E5); [rewrite E; cbn; congruence|]. rewrite E1, unwire_nth, E2, E3, E4, Nat.eqb_refl. apply whole_all in E5. now rewrite E5.
Qed.

Lemma yields_array dv y v : yields m dv y v -> array m y.
Proof. intros H. inversion H as [x s Hs Hc|x s ins w Hs Hc _ Hm]; subst; exists s; (split; [exact Hs|]); destruct (s_cls s); try reflexivity; discriminate. Qed.
Lemma evaluation_of DV val : proper DV -> (forall x, array m x -> yields m (dv_of DV) x (val x)) -> (forall x s, nth_error (p_syms m) x = Some s -> main_cls (s_cls s) = true -> val x = DV x) ->
  evaluation F g DV val.
Proof.
  intros P H HM x Hx. destruct (sym_of _ Hx) as (s & E & Ep & Ed). rewrite Ed. assert (Hc : x < count) by (apply nth_error_Some; congruence).
  destruct (main_cls (s_cls s)) eqn:Em; [replace (source_cls (s_cls s)) with true by (destruct (s_cls s); try reflexivity; discriminate); now apply (HM x s)|].
  specialize (H x (ex_intro _ s (conj E Em))) as Hy. inversion Hy as [x' s' Hs' Hc' Ex Ev|x' s' ins v Hs' Hc' Hp Hm]; subst; assert (s' = s) by congruence; subst s'.
  - destruct (source_cls (s_cls s)) eqn:Esc.
    + unfold dv_of. rewrite E. destruct (s_cls s); try reflexivity; discriminate.
    + unfold fun_at. rewrite E, Ep. rewrite <- (part_val _ P E Hc' Esc). f_equal. destruct (part_of _ E Hc' Esc) as (y & -> & t & Et & Emt & _). cbn [map]. f_equal. now apply (HM y t).
  - replace (source_cls (s_cls s)) with false by (destruct (s_cls s); try reflexivity; discriminate). unfold fun_at. rewrite E, Ep.
    replace (fun_of m s) with (meaning (s_cls s) (shapes_of m (s_pred s))) by (unfold fun_of; destruct (s_cls s); try reflexivity; discriminate). rewrite <- Hm. f_equal.
    clear - Hp H. induction Hp as [|y v ys vs Hy _ IH]; [reflexivity|]. cbn [map]. f_equal; [|exact IH].
    eapply yields_unique; [|exact Hy]. apply H. eapply yields_array; eauto.
Qed.
Lemma values DV : proper DV -> exists val, (forall x, array m x -> yields m (dv_of DV) x (val x)) /\ evaluation F g DV val.
Proof.
  intros P. pose proof (tot (dv_of_domain P)) as T.
  destruct (choose (fun x v => (array m x -> yields m (dv_of DV) x v) /\ (forall s, nth_error (p_syms m) x = Some s -> main_cls (s_cls s) = true -> v = DV x)) [] (n := count)) as [val Hv].
  - intros x Hx. destruct (nth_error (p_syms m) x) as [s|] eqn:E; [|apply nth_error_None in E; lia]. destruct (main_cls (s_cls s)) eqn:Em.
    + exists (DV x). split; [intros (s' & Es' & Em'); congruence|auto].
    + destruct (T x) as [v Y]; [exists s; auto|]. exists v. split; [auto|]. intros s' [= <-]. congruence.
  - assert (Hc : forall x s, nth_error (p_syms m) x = Some s -> x < count) by (intros x s E; apply nth_error_Some; congruence).
    exists val. split; [intros x Hx; apply Hv; [destruct Hx as (s & E & _); eauto|exact Hx]|]. apply evaluation_of; [exact P|intros x Hx; apply Hv; [destruct Hx as (s & E & _); eauto|exact Hx]|]. intros x s E. apply (Hv x); eauto.
Qed.
Lemma array_node x : array m x -> In x (gnodes g).
Proof. intros (s & E & _). apply L. apply nth_error_Some. congruence. Qed.
Lemma shows_shown st dv val : (forall x, array m x -> yields m dv x (val x)) -> shows N g st val -> shown strict dbg m g st dv.
Proof. intros Hv H x Hx. exists (val x). split; [now apply Hv|]. apply H. now apply array_node. Qed.
Lemma shown_same st st2 dv val : shown strict dbg m g st dv -> shows N g st val -> shows N g st2 val -> shown strict dbg m g st2 dv.
Proof.
  intros H S1 S2 x Hx. destruct (H x Hx) as (v & Y & E). exists v. split; [exact Y|]. pose proof (array_node Hx) as Hn. rewrite (S1 x Hn) in E. rewrite (S2 x Hn). exact E.
Qed.

Lemma dec_sym x : In x (gdec g) -> exists s, nth_error (p_syms m) x = Some s /\ source_cls (s_cls s) = true /\ In x (gnodes g) /\ is_decision g x = true.
Proof.
  intros H. assert (Hl : In x (gnodes g)) by (apply (wf_di _ (wm_WF qeqb N G F start step g whole_wf)), H). destruct (sym_of _ Hl) as (s & E & _ & Ed). exists s. split; [exact E|].
  assert (D : is_decision g x = true) by (now apply is_dec_spec). split; [congruence|]. auto.
Qed.
Lemma decided_dec x s : nth_error (p_syms m) x = Some s -> source_cls (s_cls s) = true -> In x (gdec g) /\ In x (gnodes g).
Proof.
  intros E Ec. assert (Hl : In x (gnodes g)) by (apply L; apply nth_error_Some; congruence). split; [|exact Hl]. destruct (sym_of _ Hl) as (s' & E' & _ & Ed). apply is_dec_spec. congruence.
Qed.

(** Values that the decisions have in a state without pending updates are ones they may take. *)
Lemma promise_holds s p : source_cls (s_cls s) = true -> promise m s p -> holds s (pview p).
Proof.
  destruct s as [c ps sh ct]. unfold promise, holds. cbn [s_cls s_shape]. destruct c; try discriminate; intros _ H; try exact (proj2 H);
    destruct H as (old & new & prevs & logs & -> & _ & Hn & _); exists new; (split; [apply group_pin_view|exact Hn]).
Qed.

Lemma fresh_starting st0 : fresh strict dbg m st0 -> exists DV, proper DV /\ starting N start g st0 DV.
Proof.
  intros H.
  destruct (choose (fun x v => forall s, nth_error (p_syms m) x = Some s -> source_cls (s_cls s) = true -> holds s v /\
    exists t, (st0 x = Some t \/ (st0 x = None /\ vn_init (N x) [] = Ok t)) /\ r_start (node_at strict dbg m x) t /\ vn_out (N x) t [] = Some (still v)) [] (n := count)) as [dv Hdv].
  - intros x Hx. destruct (nth_error (p_syms m) x) as [s|] eqn:E; [|apply nth_error_None in E; lia]. destruct (source_cls (s_cls s)) eqn:Ec; [|exists []; intros s' [= <-] Hc; congruence].
    pose proof (sound_good wf (sound_at wf _ E)) as (_ & _ & G3). rewrite Ec in G3. destruct G3 as [(clean & C1 & C2 & _) (d & Ei & Sd)].
    specialize (H x s E). rewrite Ec in H.
    assert (Hs : exists t, (st0 x = Some t \/ (st0 x = None /\ vn_init (N x) [] = Ok t)) /\ r_start (node_at strict dbg m x) t).
    { destruct (st0 x) as [t|]; [exists t; auto|]. unfold nodes. rewrite (node_at_sym _ E). exists d. auto. }
    destruct Hs as (t & Ht & St). assert (Ho : exists v, promise m s (still v) /\ vn_out (N x) t [] = Some (still v)).
    { clear Ht. unfold nodes in *. revert t St. rewrite (node_at_sym _ E). intros t St. destruct (C1 t St) as [v Hv]. destruct (C2 v t Hv) as (_ & P & O). exists v. auto. }
    destruct Ho as (v & P & O). exists v. intros s' [= <-] _. split; [exact (promise_holds _ _ Ec P)|]. exists t. auto.
  - exists dv. split.
    + intros x s E Ec. apply (Hdv x); auto. apply nth_error_Some. congruence.
    + intros x Hx. destruct (sym_of _ Hx) as (s & E & _ & Ed). assert (Hc : x < count) by (apply nth_error_Some; congruence). rewrite Ed. destruct (source_cls (s_cls s)) eqn:Ec.
      * apply (Hdv x Hc s E Ec).
      * specialize (H x s E). now rewrite Ec in H.
Qed.

Lemma changes_moved sources st st1 : changes strict dbg m g sources st st1 -> moved N step g sources st st1.
Proof. intros H. exact H. Qed.
(** After moves the decisions have values they may take. *)
Lemma dec_out st1 x t p : In x (gdec g) -> st1 x = Some t -> vn_out (N x) t [] = Some p -> forall f, pin_at N g (S f) st1 x = Some p.
Proof.
  intros Hd Et Ho f. destruct (dec_sym _ Hd) as (_ & _ & _ & _ & D). cbn [pin_at]. rewrite Et.
  replace (oget (gpred g) x) with (@nil nat) by (symmetry; apply (dec_pre qeqb N G F start step g whole_wf x D)). cbn [map all_some]. exact Ho.
Qed.
Lemma moved_domain st val sources st1 : ProposeProofs2.quiet qeqb N G F start step g st val -> moved N step g sources st st1 -> exists DV, proper DV /\ decided N g st1 DV /\
  forall x s, nth_error (p_syms m) x = Some s -> source_cls (s_cls s) = true -> exists t p, st1 x = Some t /\ vn_out (N x) t [] = Some p /\ promise m s p /\ pview p = DV x.
Proof.
  intros Q (Nd & In1 & Mv).
  destruct (choose (fun x v => forall s, nth_error (p_syms m) x = Some s -> source_cls (s_cls s) = true -> exists t p, st1 x = Some t /\ vn_out (N x) t [] = Some p /\ promise m s p /\ pview p = v) [] (n := count)) as [dv Hdv].
  - intros x Hx. destruct (nth_error (p_syms m) x) as [s|] eqn:E; [|apply nth_error_None in E; lia]. destruct (source_cls (s_cls s)) eqn:Ec; [|exists []; intros s' [= <-] Hc; congruence].
    destruct (decided_dec _ E Ec) as [Hd Hl]. destruct (Q x Hl) as (_ & t & Et & R). unfold ready in R. assert (D : is_decision g x = true) by now apply is_dec_spec. rewrite D in R. destruct R as (clean & DC & Hc).
    assert (Hp : exists t1 p, st1 x = Some t1 /\ vn_out (N x) t1 [] = Some p /\ promise m s p).
    { destruct DC as (_ & C2 & C3). assert (EG : forall p, G x p -> promise m s p) by (intros p; unfold promise_at; now rewrite E).
      destruct (in_dec Nat.eq_dec x sources) as [Hi|Hi].
      - destruct (proj1 (Mv x) Hi) as (t' & t1 & Et' & Et1 & Rt). assert (t' = t) by congruence. subst t'. destruct (C3 _ _ _ Hc Rt) as (_ & (p & Hp & _ & HG & _) & _). exists t1, p. auto.
      - exists t, (still (val x)). rewrite (proj2 (Mv x) Hi). destruct (C2 _ _ Hc) as (_ & HG & HO). auto. }
    destruct Hp as (t1 & p & Et1 & Ho & P). exists (pview p). intros s' [= <-] _. exists t1, p. auto.
  - assert (HD : forall x s, nth_error (p_syms m) x = Some s -> source_cls (s_cls s) = true -> exists t p, st1 x = Some t /\ vn_out (N x) t [] = Some p /\ promise m s p /\ pview p = dv x).
    { intros x s E Ec. apply (Hdv x); auto. apply nth_error_Some. congruence. }
    exists dv. split; [|split; [|exact HD]].
    + intros x s E Ec. destruct (HD x s E Ec) as (t & p & _ & _ & P & <-). now apply promise_holds.
    + intros d Hd. destruct (dec_sym _ Hd) as (s & E & Ec & Hl & _). destruct (HD d s E Ec) as (t & p & Et & Ho & _ & Ev). exists p. split; [|exact Ev].
      unfold pin_of. assert (exists f, length (gnodes g) = S f) as [f ->] by (destruct (gnodes g); [destruct Hl|cbn; eauto]). apply (@dec_out st1 d t p Hd Et Ho).
Qed.
(** Parts follow at once. *)
Lemma part_follows good D fixed p i v : group_ok good D fixed p -> unwire i (pview p) = Some v -> exists q, part_pin i p = Some q /\ pview q = v.
Proof.
  intros (old & new & prevs & logs & -> & _ & _ & L1 & L2 & L3 & _) Hv. rewrite group_pin_view, unwire_nth in Hv. destruct (GroupModel.quiet new prevs logs) eqn:Eq.
  - exists (still v). split; [now apply part_pin_quiet|reflexivity].
  - assert (Hi : i < length new) by (apply nth_error_Some; congruence). destruct (nth_error prevs i) as [k|] eqn:Ek; [|apply nth_error_None in Ek; lia]. destruct (nth_error logs i) as [us|] eqn:Eu; [|apply nth_error_None in Eu; lia].
    eexists. split; [exact (part_pin_busy _ _ _ _ _ _ _ _ Eq Hv Eu Ek)|reflexivity].
Qed.
Lemma moved_decisions st val sources st1 DV : ProposeProofs2.quiet qeqb N G F start step g st val -> moved N step g sources st st1 ->
  (forall x s, nth_error (p_syms m) x = Some s -> source_cls (s_cls s) = true -> exists t p, st1 x = Some t /\ vn_out (N x) t [] = Some p /\ promise m s p /\ pview p = DV x) -> proper DV ->
  forall x s, nth_error (p_syms m) x = Some s -> decided_cls (s_cls s) = true -> exists p, pin_of N g st1 x = Some p /\ pview p = dv_of DV x.
Proof.
  intros Q (Nd & In1 & Mv) HD P x s E Hc. assert (Hl : In x (gnodes g)) by (apply L; apply nth_error_Some; congruence). destruct (source_cls (s_cls s)) eqn:Ec.
  - destruct (HD x s E Ec) as (t & p & Et & Ho & _ & Ev). exists p. split; [unfold pin_of; assert (exists f, length (gnodes g) = S f) as [f ->] by (destruct (gnodes g); [destruct Hl|cbn; eauto]); apply (@dec_out st1 x t p (proj1 (decided_dec _ E Ec)) Et Ho)|].
    rewrite Ev. unfold dv_of. rewrite E. destruct (s_cls s); try reflexivity; discriminate.
  - destruct (sym_of _ Hl) as (s' & E' & Ep & Ed). assert (s' = s) by congruence. subst s'. rewrite Ec in Ed.
    destruct (part_of _ E Hc Ec) as (y & Ey & t & Et & Emt & Hcl). assert (Hst : source_cls (s_cls t) = true) by (destruct (s_cls t); try discriminate; reflexivity).
    destruct (HD y t Et Hst) as (ty & p & Ety & Ho & Pp & Ev). destruct (decided_dec _ Et Hst) as [Hyd Hyl].
    assert (Hx1 : exists u, st1 x = Some u). { destruct (Q x Hl) as (_ & u & Eu & _). exists u. rewrite (proj2 (Mv x)); [exact Eu|]. intros Hi. apply In1 in Hi. apply is_dec_spec in Hi. congruence. }
    destruct Hx1 as [u Eu].
    assert (Hlen : exists f, length (gnodes g) = S (S f)).
    { destruct (gnodes g) as [|a [|b l]]; [destruct Hl| |cbn; eauto]. destruct Hl as [<-|[]]. destruct Hyl as [<-|[]]. congruence. }
    destruct Hlen as [f Hf]. unfold pin_of. rewrite Hf.
    assert (Epin : forall i, r_node (node_of strict dbg m s) = part_vnode (s_shape s) i -> pin_at N g (S (S f)) st1 x = part_pin i p).
    { intros i Ei. change (pin_at N g (S (S f)) st1 x) with (match st1 x with Some s0 => match all_some (map (pin_at N g (S f) st1) (oget (gpred g) x)) with Some ps => vn_out (N x) s0 ps | None => None end | None => None end).
      rewrite Ep, Ey. cbn [map]. rewrite (@dec_out st1 y ty p Hyd Ety Ho f). cbn [all_some]. rewrite Eu. clear - Ei E. unfold nodes in u |- *. revert u. unfold node_at. rewrite E. rewrite Ei. intros u. reflexivity. }
    destruct Hcl as [(z & k & i & Es & Est)|(z & k & i & Es & Est)].
    + destruct (@listof_dv DV x y z k i P) as (ls & v & E1 & _ & E2 & E3 & _); [rewrite E; cbn; congruence|]. unfold promise in Pp. rewrite Est in Pp.
      destruct (@part_follows _ _ _ p i v Pp) as (q & Eq & Eqv); [rewrite Ev, E1, unwire_nth; exact E2|]. exists q. split; [|congruence]. rewrite <- Eq. apply Epin. unfold node_of. rewrite Es, Ey. reflexivity.
    + destruct (@bitof_dv DV x y z k i P) as (ls & v & E1 & _ & E2 & E3 & _); [rewrite E; cbn; congruence|]. unfold promise in Pp. rewrite Est in Pp.
      destruct (@part_follows _ _ _ p i v Pp) as (q & Eq & Eqv); [rewrite Ev, E1, unwire_nth; exact E2|]. exists q. split; [|congruence]. rewrite <- Eq. apply Epin. unfold node_of. rewrite Es, Ey. reflexivity.
Qed.

Lemma running_reachable st : running strict dbg m g st -> reachable N F start step g dbg st /\ exists DV val, proper DV /\ (forall x, array m x -> yields m (dv_of DV) x (val x)) /\ ProposeProofs2.quiet qeqb N G F start step g st val.
Proof.
  intros H. induction H as [st0 st Hf Hi|st sources st1 accept marks st2 Hr IH Hc Hp].
  - destruct (fresh_starting Hf) as (dv & Hd & Hs). destruct (values Hd) as (val & Hv & He). split; [exact (rc_init N F start step g dbg _ _ _ _ Hs He Hi)|].
    exists dv, val. split; [exact Hd|]. split; [exact Hv|]. destruct (init_ok qeqb N G F start step g whole_wf st0 dv val Hs He) as (st' & E & Q). rewrite Hi in E. now injection E as <-.
  - destruct IH as (R & dv & val & Hd & Hv & Q). destruct (moved_domain Q (changes_moved Hc)) as (dv' & Hd' & Hdd & _). destruct (values Hd') as (val' & Hv' & He').
    split; [exact (rc_propose N F start step g dbg _ _ _ _ _ _ _ _ R Hc Hdd He' Hp)|].
    destruct (propose_ok qeqb N G F start step g whole_wf dbg st val sources st1 dv' val' accept Q Hc Hdd He') as (mid & st2' & E & _ & Q2 & _).
    rewrite Hp in E. assert (st2 = st2') by congruence. subst st2'. destruct (accept mid); [exists dv', val'|exists dv, val]; auto.
Qed.
Theorem run_faithful : faithful strict dbg m g.
Proof.
  split; [|split].
  - intros st0 Hf. destruct (fresh_starting Hf) as (dv & Hd & Hs). destruct (values Hd) as (val & Hv & He). destruct (C17_initialise qeqb N G F start step g whole_wf st0 dv val Hs He) as (st & E & _). eauto.
  - intros st Hr. destruct (running_reachable Hr) as (_ & dv & val & Hd & Hv & Q). exists (dv_of dv). split; [now apply dv_of_domain|]. apply (shows_shown Hv). now apply (quiet_shows qeqb N G F start step g whole_wf).
  - intros st dv sources st1 accept Hr Hs Hc. destruct (running_reachable Hr) as (R & DV0 & val & _ & Hv & Q). pose proof (quiet_shows qeqb N G F start step g whole_wf _ _ Q) as Hsh.
    destruct (moved_domain Q (changes_moved Hc)) as (DV & Hd' & Hdd & HD). destruct (values Hd') as (val' & Hv' & He').
    destruct (C17_propose qeqb N G F start step g whole_wf dbg st val sources st1 DV val' accept R Hsh Hc Hdd He') as (mid & st2 & E & Hm & Hmid & S2 & _).
    exists (dv_of DV), mid, st2. split; [now apply dv_of_domain|]. split.
    { intros x Hx. unfold decisions in Hx. apply filter_In in Hx. destruct Hx as [Hx1 Hx2]. unfold decides in Hx2. destruct (nth_error (p_syms m) x) as [s|] eqn:Es; [|discriminate]. exact (moved_decisions Q (changes_moved Hc) HD Hd' _ Es Hx2). }
    split; [exact Hm|]. split; [exact E|]. split.
    + intros x Hx. destruct (Hmid x) as (p & P1 & P2 & _); [now apply array_node|]. exists (val' x), p. split; [now apply Hv'|]. auto.
    + destruct (accept mid); [apply (shows_shown Hv' S2)|apply (shown_same Hs Hsh S2)].
Qed.
End Whole.
