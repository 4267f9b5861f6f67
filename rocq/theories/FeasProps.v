(** C72 [Model.feasible]. *)
From Verif Require Import Base GraphModel GraphSpec GraphProofs GraphProofs2 GraphProofs3 LockModel LockSpec LockProofs LockProofs2 LockProofs3 LockProps FeasModel FeasSpec FeasProofs.

(** Under a lock the answer is whether every constraint is true of the stored state; nothing but states that
    were missing from that state is added. *)
Theorem C72_feasible : forall S ninit kind truth ops (m : model S) index i st, m_hist ninit kind ops m -> 0 < held ops 0 ->
  py_index (length (mstates m)) index i -> nth_error (mstates m) i = Some st ->
  exists m' b st', feasible ninit truth m index = Some (m', Some b) /\
    (b = true <-> forall c, In c (gcons (mg m)) -> satisfied ninit truth (mg m) st c) /\
    (b = false <-> exists c, In c (gcons (mg m)) /\ violated ninit truth (mg m) st c) /\
    mg m' = mg m /\ is_locked m' = true /\ mstates m' = lset i st' (mstates m) /\
    forall k y, In k (gnodes (mg m)) -> state_of (mg m) st k = Some y -> state_of (mg m) st' k = Some y.
Proof.
  intros S ninit kind truth ops m index i st Hh Hd PI Hst. pose proof (hist_LI _ _ _ _ Hh) as L.
  destruct (C43_held _ _ _ _ _ Hh) as [E1 _]. assert (EL : is_locked m = true) by (rewrite E1; now apply Nat.ltb_lt).
  destruct (loop_ok ninit kind truth index i (gcons (mg m)) m st L (wf_cons _ (inc_wf _ (li_inc _ _ L))) PI Hst) as (m' & r & st' & E & L' & G & K & MS & GR & O).
  assert (X : forall c, satisfied ninit truth (mg m) st c -> violated ninit truth (mg m) st c -> False).
  { intros c (x & V & T) (y & W & U). rewrite (value_det ninit _ _ _ _ V _ W) in T. congruence. }
  destruct O as [[-> F]|(pre & c & post & Ec & F & [(R & V & ->)|(R & _)])]; [| |exfalso; apply R; now left].
  - exists m', true, st'. split; [exact E|]. rewrite Forall_forall in F. split; [split; [intros _ c Hc; apply (F c Hc)|reflexivity]|].
    split; [split; [discriminate|intros (c & Hc & V); destruct (X c (proj2 (F c Hc)) V)]|]. split; [exact G|].
    split; [unfold is_locked in *; now rewrite K|]. split; [exact MS|exact (proj1 GR)].
  - assert (Hc : In c (gcons (mg m))) by (rewrite Ec; apply in_elt).
    exists m', false, st'. split; [exact E|]. split; [split; [discriminate|intros A; destruct (X c (A c Hc) V)]|].
    split; [split; [intros _; exists c; auto|reflexivity]|]. split; [exact G|]. split; [unfold is_locked in *; now rewrite K|]. split; [exact MS|exact (proj1 GR)].
Qed.
Print Assumptions C72_feasible.

(** Asking again gives the same answer. *)
Theorem C72_again : forall S ninit kind truth ops (m : model S) index i st m' b, m_hist ninit kind ops m -> 0 < held ops 0 ->
  py_index (length (mstates m)) index i -> nth_error (mstates m) i = Some st ->
  feasible ninit truth m index = Some (m', Some b) -> exists m'', feasible ninit truth m' index = Some (m'', Some b).
Proof.
  intros S ninit kind truth ops m index i st m1 b Hh Hd PI Hst E0. pose proof (hist_LI _ _ _ _ Hh) as L.
  destruct (C43_held _ _ _ _ _ Hh) as [E1 _]. assert (EL : is_locked m = true) by (rewrite E1; now apply Nat.ltb_lt).
  destruct (loop_ok ninit kind truth index i (gcons (mg m)) m st L (wf_cons _ (inc_wf _ (li_inc _ _ L))) PI Hst) as (m' & r & st' & E & L' & G & K & MS & GR & O).
  unfold feasible in E0. rewrite E in E0. injection E0 as -> ->.
  destruct (loop_ok ninit kind truth index i (gcons (mg m1)) m1 st' L' (wf_cons _ (inc_wf _ (li_inc _ _ L')))) as (m2 & r2 & st2 & E' & _ & _ & _ & _ & _ & O').
  { rewrite MS, lset_length. exact PI. }
  { rewrite MS. apply nth_error_lset_eq. apply PI. }
  exists m2. unfold feasible. rewrite E'. f_equal. f_equal.
  assert (B : forall n y, value ninit (mg m) (state_of (mg m) st') n y -> value ninit (mg m) (state_of (mg m) st) n y).
  { apply value_ext. intros d Hd'. symmetry. now apply (proj2 GR). }
  rewrite G in O'. unfold outcome in *. rewrite G in O'.
  assert (X : forall c, satisfied ninit truth (mg m) st' c -> violated ninit truth (mg m) st c -> False).
  { intros c (x & V & T) (y & W & U). rewrite (value_det ninit _ _ _ _ (B _ _ V) _ W) in T. congruence. }
  assert (Y : forall c, satisfied ninit truth (mg m) st c -> violated ninit truth (mg m) st' c -> False).
  { intros c (x & V & T) (y & W & U). rewrite (value_det ninit _ _ _ _ V _ (B _ _ W)) in T. congruence. }
  assert (RD : forall c, readable m c /\ readable m1 c) by (intros c; split; left; unfold is_locked in *; congruence).
  destruct O as [[-> F]|(pre & c & post & Ec & F & [(R & V & ->)|(R & _)])]; [| |destruct (R (proj1 (RD c)))];
    destruct O' as [[-> F']|(pre' & c' & post' & Ec' & F' & [(R' & V' & ->)|(R' & _)])]; auto; try (destruct (R' (proj2 (RD c')))); exfalso.
  - rewrite Forall_forall in F. apply (Y c'); [apply F; rewrite Ec'; apply in_elt|exact V'].
  - rewrite Forall_forall in F'. apply (X c); [apply F'; rewrite Ec; apply in_elt|exact V].
Qed.
Print Assumptions C72_again.

(** Without a lock only the states of decisions can be read: the answer is false if a decision before every
    other constraint is, and an exception otherwise, unless all constraints are decisions. *)
Theorem C72_unlocked : forall S ninit kind truth ops (m : model S) index i st, m_hist ninit kind ops m -> held ops 0 = 0 ->
  py_index (length (mstates m)) index i -> nth_error (mstates m) i = Some st ->
  exists m' r st', feasible ninit truth m index = Some (m', r) /\ mg m' = mg m /\ mstates m' = lset i st' (mstates m) /\
    ((r = Some true /\ incl (gcons (mg m)) (gdec (mg m)) /\ forall c, In c (gcons (mg m)) -> satisfied ninit truth (mg m) st c) \/
     (exists pre c post, gcons (mg m) = pre ++ c :: post /\ incl pre (gdec (mg m)) /\ (forall d, In d pre -> satisfied ninit truth (mg m) st d) /\
        ((In c (gdec (mg m)) /\ violated ninit truth (mg m) st c /\ r = Some false) \/ (~ In c (gdec (mg m)) /\ r = None)))).
Proof.
  intros S ninit kind truth ops m index i st Hh Hd PI Hst. pose proof (hist_LI _ _ _ _ Hh) as L.
  destruct (C43_held _ _ _ _ _ Hh) as [E1 _]. assert (EL : is_locked m = false) by (rewrite E1, Hd; reflexivity).
  destruct (loop_ok ninit kind truth index i (gcons (mg m)) m st L (wf_cons _ (inc_wf _ (li_inc _ _ L))) PI Hst) as (m' & r & st' & E & L' & G & K & MS & GR & O).
  exists m', r, st'. split; [exact E|]. split; [exact G|]. split; [exact MS|].
  assert (RD : forall c, readable m c <-> In c (gdec (mg m))) by (intros c; unfold readable; rewrite EL; split; [intros [|]; [discriminate|auto]|auto]).
  destruct O as [[-> F]|(pre & c & post & Ec & F & O)]; rewrite Forall_forall in F.
  - left. split; [reflexivity|]. split; [intros c Hc; apply RD, F, Hc|intros c Hc; apply (F c Hc)].
  - right. exists pre, c, post. split; [exact Ec|]. split; [intros d Hd'; apply RD, F, Hd'|]. split; [intros d Hd'; apply (F d Hd')|].
    destruct O as [(R & V & ->)|(R & ->)]; [left|right]; rewrite RD in R; auto.
Qed.
Print Assumptions C72_unlocked.

(** An index outside the states is an exception if there is a constraint. *)
Theorem C72_index : forall S ninit truth (m : model S) index, (forall i, ~ py_index (length (mstates m)) index i) ->
  gcons (mg m) <> [] -> feasible ninit truth m index = Some (m, None).
Proof.
  intros S ninit truth m index N C. unfold feasible. destruct (gcons (mg m)) as [|c t]; [now destruct C|]. cbn [feas_loop]. rewrite (state_at_out ninit (fun n => n) m c index N). reflexivity.
Qed.
Print Assumptions C72_index.

(** It is not without constraints: every state is feasible then, of whatever index, even where there is none. *)
Theorem C72_no_state_refuted : exists ninit kind truth ops (m : model nat) index, m_hist ninit kind ops m /\ 0 < held ops 0 /\
  (forall i, ~ py_index (length (mstates m)) index i) /\ feasible ninit truth m index = Some (m, Some true).
Proof.
  exists (fun _ => list_sum), (fun _ => 0), (fun x => negb (x =? 0)), (([] ++ [MDecision]) ++ [MLock]).
  eexists. exists 7%Z. split; [run_hist|]. split; [cbn; lia|]. split; [intros i [Q _]; cbn in Q; lia|]. vm_compute. reflexivity.
Qed.
Print Assumptions C72_no_state_refuted.

(** Two constraints, one a decision: with states 3 and 4 both hold, with the default 0 the first does not; under no lock the
    answer about the latter is false, about the former an exception. *)
Definition ex_feas : list (mop nat) :=
  (((((([] ++ [MDecision]) ++ [MDecision]) ++ [MAdd [0; 1]]) ++ [MConstraint 0]) ++ [MConstraint 2]) ++ [MResize 2]) ++ [MSet 0 1 (Some 3)].
Example C72_example :
  (exists m, m_hist (fun _ => list_sum) (fun n => n) (ex_feas ++ [MLock]) m /\ held (ex_feas ++ [MLock]) 0 = 1 /\
     gcons (mg m) = [0; 2] /\ mstates m = [[]; [Some 3]] /\ py_index (length (mstates m)) (-1) 1 /\
     option_map snd (feasible (fun _ => list_sum) (fun x => negb (x =? 0)) m (-1)) = Some (Some true) /\
     option_map (fun r => (mstates (fst r), snd r)) (feasible (fun _ => list_sum) (fun x => negb (x =? 0)) m 1) = Some ([[]; [Some 3; Some 0; Some 3]], Some true) /\
     option_map (fun r => (mstates (fst r), snd r)) (feasible (fun _ => list_sum) (fun x => negb (x =? 0)) m 0) = Some ([[Some 0]; [Some 3]], Some false) /\
     feasible (fun _ => list_sum) (fun x => negb (x =? 0)) m 2 = Some (m, None)) /\
  (exists m, m_hist (fun _ => list_sum) (fun n => n) ex_feas m /\ held ex_feas 0 = 0 /\
     option_map snd (feasible (fun _ => list_sum) (fun x => negb (x =? 0)) m 0) = Some (Some false) /\
     option_map snd (feasible (fun _ => list_sum) (fun x => negb (x =? 0)) m 1) = Some None).
Proof.
  split; eexists; (split; [unfold ex_feas; run_hist|]).
  - split; [reflexivity|]. split; [reflexivity|]. split; [reflexivity|]. split; [cbn; unfold py_index; lia|]. vm_compute. repeat split.
  - split; [reflexivity|]. vm_compute. split; reflexivity.
Qed.
