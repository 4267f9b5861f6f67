From Verif Require Import Base GraphModel GraphSpec GraphProofs GraphProofs2 GraphProofs3 LockModel LockSpec LockProofs LockProofs2 LockProofs3.
From Coq Require Import Relations.

(** C43: in every history the model is locked, and its graph sorted, exactly while a lock is held. *)
Theorem C43_held : forall S ninit kind ops (m : model S), m_hist ninit kind ops m ->
  is_locked m = (0 <? held ops 0) /\ gsorted (mg m) = is_locked m.
Proof.
  intros S ninit kind ops m Hh. split; [|apply (li_s _ _ (hist_LI _ _ _ _ Hh))].
  unfold is_locked. now rewrite (hist_locks _ _ _ _ Hh).
Qed.
Print Assumptions C43_held.

(** While a lock is held no symbol can be added or removed: an exception, and nothing changes. *)
Theorem C43_locked_refuses : forall S ninit kind ops (m : model S) o, m_hist ninit kind ops m -> 0 < held ops 0 ->
  (o = MDecision \/ (exists ps, o = MAdd ps) \/ o = MRemove) -> m_step ninit kind m o = Some (m, false).
Proof.
  intros S ninit kind ops m o Hh Hd Ho. destruct (C43_held _ _ _ _ _ Hh) as [E1 E2].
  assert (El : is_locked m = true) by (rewrite E1; now apply Nat.ltb_lt). rewrite El in E2.
  destruct Ho as [-> |[[ps ->]| ->]]; cbn [m_step g_step]; unfold emplace_node; rewrite ?E2; auto. now rewrite El.
Qed.
Print Assumptions C43_locked_refuses.

(** Without a lock symbols can be added. *)
Theorem C43_unlocked_accepts : forall S ninit kind ops (m : model S) ps, m_hist ninit kind ops m -> held ops 0 = 0 ->
  incl ps (gnodes (mg m)) ->
  (exists m', m_step ninit kind m (MAdd ps) = Some (m', true) /\ exists n, gnodes (mg m') = gnodes (mg m) ++ [n] /\ oget (gpred (mg m')) n = ps) /\
  (exists m', m_step ninit kind m MDecision = Some (m', true) /\ exists n, gdec (mg m') = gdec (mg m) ++ [n]).
Proof.
  intros S ninit kind ops m ps Hh Hd Hps. destruct (C43_held _ _ _ _ _ Hh) as [E1 E2].
  assert (El : is_locked m = false) by (rewrite E1, Hd; reflexivity). rewrite El in E2.
  pose proof (hist_LI _ _ _ _ Hh) as L. pose proof (inc_wf _ (li_inc _ _ L)) as H.
  assert (Ha : forallb (alive (mg m)) ps = true) by (apply forallb_forall; intros p Hp; apply (wf_al _ H); auto).
  split; cbn [m_step g_step]; unfold emplace_node, on_graph; rewrite E2; rewrite ?Ha; cbn [negb forallb];
    eexists; (split; [reflexivity|]); eexists; cbn [mg gnodes gpred gdec]; [split|]; [reflexivity| |reflexivity].
  unfold oget. now rewrite app_nth2, Nat.sub_diag by lia.
Qed.
Print Assumptions C43_unlocked_accepts.

(** Releasing a lock: while others are held nothing else changes; releasing the last one keeps the
    states of the decisions and discards all others, also for a later lock. *)
Theorem C43_unlock : forall S ninit kind ops (m : model S), m_hist ninit kind ops m ->
  (held ops 0 = 0 -> unlock m = m) /\
  (2 <= held ops 0 -> mg (unlock m) = mg m /\ mstates (unlock m) = mstates m) /\
  (held ops 0 = 1 -> gdec (mg (unlock m)) = gdec (mg m) /\ exists m', lock (unlock m) = Some (m', true) /\
     gdec (mg m') = gdec (mg m) /\ (forall n, In n (gnodes (mg m')) <-> In n (gnodes (mg m))) /\
     length (mstates m') = length (mstates m) /\
     forall i st, nth_error (mstates m) i = Some st -> exists st1 st2, nth_error (mstates (unlock m)) i = Some st1 /\ nth_error (mstates m') i = Some st2 /\
       forall n, In n (gnodes (mg m)) ->
         (In n (gdec (mg m)) -> state_of (mg (unlock m)) st1 n = state_of (mg m) st n /\ state_of (mg m') st2 n = state_of (mg m) st n) /\
         (~ In n (gdec (mg m)) -> state_of (mg (unlock m)) st1 n = None /\ state_of (mg m') st2 n = None)).
Proof.
  intros S ninit kind ops m Hh. pose proof (hist_LI _ _ _ _ Hh) as L. pose proof (li_inc _ _ L) as Hi. pose proof (inc_wf _ Hi) as H.
  rewrite <- (hist_locks _ _ _ _ Hh). split; [|split].
  - intros E. unfold unlock, is_locked. now rewrite E.
  - intros E. unfold unlock, is_locked. destruct (Nat.ltb_spec 0 (mlocks m)); [|lia]. cbn [negb mlocks mg mstates].
    destruct (Nat.ltb_spec (mlocks m - 1) 1); [lia|]. cbn [mlocks mg mstates]. destruct (Nat.ltb_spec 0 (mlocks m - 1)); [auto|lia].
  - intros E. pose proof (LI_unlock ninit m L) as L'.
    assert (Eg : gnodes (reset_topological_sort (mg m)) = gnodes (mg m) /\ gdec (reset_topological_sort (mg m)) = gdec (mg m))
      by (unfold reset_topological_sort; destruct (negb _); auto). destruct Eg as [Eg1 Eg2].
    assert (Eu : unlock m = Model (reset_topological_sort (mg m)) 0 (map (vresize (length (gdec (mg m))) None) (mstates m))).
    { unfold unlock, is_locked. rewrite E. change (negb (0 <? 1)) with false. cbv beta iota zeta. cbn [mlocks mg mstates].
      change (1 - 1 <? 1) with true. cbv beta iota. cbn [mlocks mg mstates]. change (negb (0 <? 1 - 1)) with true. cbv beta iota.
      unfold num_decisions. cbn [mg]. now rewrite Eg2. }
    rewrite Eu in *. cbn [mg mstates]. split; [exact Eg2|].
    assert (Lk : lock (@Model S (reset_topological_sort (mg m)) 0 (map (vresize (length (gdec (mg m))) None) (mstates m))) =
      match topological_sort (reset_topological_sort (mg m)) with Ok g => Some (Model g 1 (map (vresize (length (gdec (mg m))) None) (mstates m)), true)
        | Throw => Some (unlock m, false) | UB => None end) by (rewrite Eu; reflexivity).
    pose proof (li_inc _ _ L') as Hi'. pose proof (li_s _ _ L') as Hs'. cbn [mg] in Hi', Hs'. cbn in Hs'.
    destruct (sort_Inc _ Hi' Hs') as [tp [Es Ho]]. rewrite Es in Lk. eexists. split; [exact Lk|].
    pose proof (inc_wf _ (sort_step_Inc _ _ Hi' Es)) as Hw. pose proof (inc_wf _ Hi') as H'.
    cbn [mg mstates]. split; [exact Eg2|]. split.
    { intros n. rewrite <- Eg1. pose proof (dec_nondec_perm _ H') as P. split; intros Hn; [eapply Permutation_in; [exact P|exact Hn]|].
      eapply Permutation_in; [apply Permutation_sym, P|exact Hn]. }
    split; [now rewrite map_length|]. intros i st Hst.
    exists (vresize (length (gdec (mg m))) None st), (vresize (length (gdec (mg m))) None st).
    split; [now apply map_nth_error|]. split; [now apply map_nth_error|]. intros n Hn.
    set (g1 := reset_topological_sort (mg m)) in *. set (g2 := with_order g1 (gdec g1 ++ nondec g1) tp) in *.
    assert (Hn1 : In n (gnodes g1)) by now rewrite Eg1.
    assert (Hn2 : In n (gnodes g2)) by (eapply Permutation_in; [apply Permutation_sym, (dec_nondec_perm _ H')|exact Hn1]).
    assert (Ed2 : gdec g2 = gdec (mg m)) by exact Eg2.
    split; intros Hd.
    + assert (V : forall k, k < length (gdec (mg m)) -> nth_error (vresize (length (gdec (mg m))) None st) k = Some (match nth_error st k with Some x => x | None => None end)).
      { intros k Hk. unfold vresize. destruct (Nat.lt_ge_cases k (length st)) as [Hl|Hl].
        - rewrite nth_error_app1 by (rewrite firstn_length; lia). rewrite nth_error_firstn. destruct (Nat.ltb_spec k (length (gdec (mg m)))); [|lia].
          destruct (nth_error st k) eqn:E'; auto. apply nth_error_None in E'. lia.
        - assert (E' : nth_error st k = None) by now apply nth_error_None. rewrite E'.
          rewrite nth_error_app2 by (rewrite firstn_length; lia). rewrite firstn_length. rewrite nth_error_repeat. destruct (Nat.ltb_spec (k - Nat.min (length (gdec (mg m))) (length st)) (length (gdec (mg m)) - length st)); [reflexivity|lia]. }
      apply In_nth_error in Hd as [k Hk]. assert (Lk' : k < length (gdec (mg m))) by (apply nth_error_Some; congruence).
      unfold state_of. rewrite (tidx_dec (mg m) k n H Hk), (tidx_dec g1 k n H'), (tidx_dec g2 k n Hw) by congruence. rewrite (V k Lk'). auto.
    + split; apply nondec_none; auto; rewrite ?Eg2, ?Ed2; auto; intros _; rewrite vresize_length; auto.
Qed.
Print Assumptions C43_unlock.

(** Every stored state of a symbol that is not a decision is what the stored states of its predecessors give. *)
Theorem C43_coherent : forall S ninit kind ops (m : model S), m_hist ninit kind ops m -> coherent ninit m.
Proof.
  intros S ninit kind ops m Hh i st n x Hst. pose proof (li_coh _ _ (hist_LI _ _ _ _ Hh)) as C. rewrite Forall_forall in C.
  apply (C st (nth_error_In _ _ Hst)).
Qed.
Print Assumptions C43_coherent.

(** Reading a symbol's state: of any symbol under a lock, of decisions always; the result is the value of
    the symbol for the stored states of the decisions (the default where there is none), and no state present is changed. *)
Theorem C43_read : forall S ninit kind ops (m : model S) n i st, m_hist ninit kind ops m -> In n (gnodes (mg m)) ->
  nth_error (mstates m) i = Some st ->
  (0 < held ops 0 \/ In n (gdec (mg m)) -> exists m' x st', read_state ninit m n i = Some (m', Some x) /\ value ninit (mg m) (state_of (mg m) st) n x /\
     mg m' = mg m /\ mstates m' = lset i st' (mstates m) /\
     forall k y, In k (gnodes (mg m)) -> state_of (mg m) st k = Some y -> state_of (mg m) st' k = Some y) /\
  (held ops 0 = 0 -> ~ In n (gdec (mg m)) -> read_state ninit m n i = Some (m, None)).
Proof.
  intros S ninit kind ops m n i st Hh Hn Hst. pose proof (hist_LI _ _ _ _ Hh) as L. pose proof (inc_wf _ (li_inc _ _ L)) as H.
  destruct (C43_held _ _ _ _ _ Hh) as [E1 E2]. split.
  - intros Hd. destruct (read_spec ninit kind m n i st L Hn) as (st' & x & E & _ & _ & P & V); auto.
    { destruct Hd; [left; rewrite E1; now apply Nat.ltb_lt|now right]. }
    exists (Model (mg m) (mlocks m) (lset i st' (mstates m))), x, st'. split; auto. split; auto. split; auto. split; auto.
    intros k y Hk. now apply (ip_old _ _ _ _ _ P).
  - intros Hd Hnd. assert (El : is_locked m = false) by (rewrite E1, Hd; reflexivity). unfold read_state.
    assert (Ha : alive (mg m) n = true) by now apply (wf_al _ H). rewrite Ha, El. cbn [negb].
    unfold index_of. rewrite tidx_nondec; auto. congruence.
Qed.
Print Assumptions C43_read.

(** Setting the state of a decision discards the states of all symbols depending on it and no others; a
    refused value discards them too, and the state the decision had. *)
Theorem C43_set : forall S ninit kind ops (m : model S) n i v st, m_hist ninit kind ops m -> In n (gdec (mg m)) ->
  nth_error (mstates m) i = Some st ->
  exists m' b st', m_step ninit kind m (MSet n i v) = Some (m', b) /\ (b = true <-> v <> None) /\
    mg m' = mg m /\ mstates m' = lset i st' (mstates m) /\ state_of (mg m) st' n = v /\
    forall k, In k (gnodes (mg m)) -> k <> n ->
      (reaches (mg m) n k -> state_of (mg m) st' k = None) /\ (~ reaches (mg m) n k -> state_of (mg m) st' k = state_of (mg m) st k).
Proof.
  intros S ninit kind ops m n i v st Hh Hn Hst. pose proof (hist_LI _ _ _ _ Hh) as L.
  destruct (set_spec ninit m n i v st L Hn Hst) as (st' & E & _ & Ev & Hr).
  eexists. eexists. exists st'. cbn [m_step]. rewrite (proj2 (existsb_In n _) Hn). split; [exact E|].
  split; [destruct v; split; congruence|]. cbn [mg mstates]. auto.
Qed.
Print Assumptions C43_set.

(** Adding a term to an n-ary sum ([+=]) is not refused under a lock, and leaves a stored sum that is not
    that of its terms. *)
Theorem C43_iadd_refuted : exists ninit kind ops (m : model nat), m_run ninit kind m_empty ops = Some m /\ 0 < held ops 0 /\ ~ coherent ninit m.
Proof.
  exists (fun _ => list_sum), (fun _ => 0),
    [MDecision; MDecision; MAdd [0]; MResize 1; MSet 0 0 (Some 3); MSet 1 0 (Some 4); MLock; MRead 2 0; MIAdd 2 1].
  eexists. split; [vm_compute; reflexivity|]. split; [cbn; lia|]. intros C.
  destruct (C 0 [Some 3; Some 4; Some 3] 2 3) as [ss [E1 E2]]; try reflexivity; [vm_compute; tauto|vm_compute; intuition lia|].
  vm_compute in E1. assert (E : ss = [3; 4]).
  { destruct ss as [|a [|b [|c ss]]]; try discriminate E1. injection E1 as -> ->. auto. }
  rewrite E in E2. discriminate E2.
Qed.
Print Assumptions C43_iadd_refuted.

(** States can be loaded from the file of a model with more decisions; the next symbol added then finds a
    state of one of those decisions in its place. *)
Theorem C43_foreign_states_refuted : exists ninit kind ops (m : model nat), m_run ninit kind m_empty ops = Some m /\
  forallb (fun o => match o with MIAdd _ _ => false | _ => true end) ops = true /\ 0 < held ops 0 /\ ~ coherent ninit m /\
  exists m' x, read_state ninit m 1 0 = Some (m', Some x) /\ x <> 10 * list_sum [3].
Proof.
  exists (fun _ l => 10 * list_sum l), (fun _ => 0), [MDecision; MFile [0; 0] [[Some 3; Some 4]]; MAdd [0]; MLock].
  eexists. split; [vm_compute; reflexivity|]. split; [reflexivity|]. split; [cbn; lia|]. split.
  - intros C. destruct (C 0 [Some 3; Some 4] 1 4) as [ss [E1 E2]]; try reflexivity; [vm_compute; tauto|vm_compute; intuition lia|].
    destruct ss as [|a [|b ss]]; try discriminate E1. injection E1 as <-. discriminate E2.
  - eexists. exists 4. split; [vm_compute; reflexivity|discriminate].
Qed.
Print Assumptions C43_foreign_states_refuted.

Ltac run_hist := apply h_nil || (eapply h_step; [run_hist|exact I|vm_compute; reflexivity]).
(** Nested locks, an extra release, states kept and discarded. *)
Definition ex_locks : list (mop nat) :=
  [MUnlock; MDecision; MAdd [0]; MDecision; MAdd [1; 2]; MResize 2; MSet 0 0 (Some 3); MLock; MLock; MSet 2 0 (Some 4); MRead 3 0; MDecision; MUnlock; MSet 2 1 None].
Example C43_example : exists m : model nat, m_hist (fun n l => n + 10 * list_sum l) (fun n => n) ex_locks m /\ held ex_locks 0 = 1 /\
  gnodes (mg m) = [0; 2; 1; 3] /\ mstates m = [[Some 3; Some 4; Some 31; Some 353]; [None; None]] /\
  mstates (unlock m) = [[Some 3; Some 4]; [None; None]] /\
  value (fun n l => n + 10 * list_sum l) (mg m) (state_of (mg m) [Some 3; Some 4]) 3 353.
Proof.
  unfold ex_locks. eexists. split.
  { change [MUnlock; MDecision; MAdd [0]; MDecision; MAdd [1; 2]; MResize 2; MSet 0 0 (Some 3); MLock; MLock; MSet 2 0 (Some 4); MRead 3 0; MDecision; MUnlock; MSet 2 1 None]
      with (((((((((((((([] ++ [MUnlock]) ++ [MDecision]) ++ [MAdd [0]]) ++ [MDecision]) ++ [MAdd [1; 2]]) ++ [MResize 2]) ++ [MSet 0 0 (Some 3)]) ++ [MLock]) ++ [MLock]) ++ [MSet 2 0 (Some 4)]) ++ [MRead 3 0]) ++ [MDecision]) ++ [MUnlock]) ++ [@MSet nat 2 1 None]).
    run_hist. }
  split; [reflexivity|]. split; [reflexivity|]. split; [reflexivity|]. split; [vm_compute; reflexivity|].
  change 353 with ((fun n l => n + 10 * list_sum l) 3 [31; 4]). apply v_node; [vm_compute; tauto|vm_compute; intuition lia|].
  constructor; [|constructor; [|constructor]].
  - change 31 with ((fun n l => n + 10 * list_sum l) 1 [3]). apply v_node; [vm_compute; tauto|vm_compute; intuition lia|].
    constructor; [|constructor]. match goal with |- value ?f ?g ?d 0 _ => assert (V : In 0 (gdec g)) by (vm_compute; tauto); exact (v_dec f g d 0 V) end.
  - match goal with |- value ?f ?g ?d 2 _ => assert (V : In 2 (gdec g)) by (vm_compute; tauto); exact (v_dec f g d 2 V) end.
Qed.
