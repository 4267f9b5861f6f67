(** C44: writing a model and reading it back. *)
From Verif Require Import Base SliceModel GraphModel GraphSpec GraphProofs GraphProofs2 GraphProofs3 LockModel LockSpec LockProofs LockProofs2 LockProofs3 LockProps IoModel IoSpec IoProofs IoProofs2.

(** The header occupies a multiple of 64 bytes, and reading gives back the data followed by 1 to 64 blanks,
    with the file positioned after the header. *)
Theorem C44_header : forall data, (Z.of_nat (length data) + 64 < 2 ^ 32)%Z -> exists bytes, write_header data = Some bytes /\
  (Z.of_nat (length bytes) mod 64 = 0)%Z /\ forall tail, exists k, 1 <= k <= 64 /\ read_header (bytes ++ tail) = Some (data ++ repeat 32%Z k, tail).
Proof.
  intros data H. destruct (header_fits data H) as [bytes E]. exists bytes. split; auto. now apply header_ok.
Qed.
Print Assumptions C44_header.

(** The adjacency file of a locked model: line [i] is that of node [i], and lists only smaller ids, those of the predecessors in order. *)
Theorem C44_adjacency : forall S ninit kind ops (m : model S) k b i id ids, m_hist ninit kind ops m -> 0 < held ops 0 ->
  nth_error (a_adj (write kind m k b)) i = Some (id, ids) ->
  id = Z.of_nat i /\ Forall (fun p => 0 <= p < id)%Z ids /\
  exists n, at_pos m i n /\ Forall2 (fun p q => exists j, p = Z.of_nat j /\ at_pos m j q) ids (oget (gpred (mg m)) n).
Proof.
  intros S ninit kind ops m k b i id ids Hh Hd E. pose proof (hist_LI _ _ _ _ Hh) as L. destruct (C43_held _ _ _ _ _ Hh) as [E1 _].
  assert (Lk : is_locked m = true) by (rewrite E1; now apply Nat.ltb_lt).
  unfold write in E. cbn [a_adj] in E. rewrite nth_error_map, nth_error_firstn in E. destruct (i <? _); [|discriminate E].
  destruct (nth_error (gnodes (mg m)) i) as [n|] eqn:A; [|discriminate E]. cbn [option_map] in E.
  assert (Q : id = topo m n /\ ids = map (topo m) (oget (gpred (mg m)) n)) by (split; congruence). destruct Q as [-> ->].
  rewrite (topo_at ninit m L Lk i n A). split; auto. assert (P := fun p => at_pred ninit m L Lk i n p A). split.
  - apply Forall_forall. intros z Hz. apply in_map_iff in Hz as [p [<- Hp]]. destruct (P p Hp) as [P1 P2]. rewrite (topo_in ninit m L Lk p P1). lia.
  - exists n. split; auto. clear E E1 Hh. revert P. induction (oget (gpred (mg m)) n) as [|p l IH]; intros P; cbn [map]; constructor.
    + destruct (P p (or_introl eq_refl)) as [P1 _]. exists (pos m p). split; [apply (topo_in ninit m L Lk p P1)|apply (at_in ninit m L Lk p P1)].
    + apply IH. intros q Hq. apply P. now right.
Qed.
Print Assumptions C44_adjacency.

(** Reading what was written gives the same model: nodes by position, edges, objective, constraints, decisions, and the first
    states of the decisions; it is not locked. *)
Theorem C44_roundtrip : forall S ninit kind ops (m : model S) decides k (b : bool), m_hist ninit kind ops m -> 0 < held ops 0 ->
  (forall n, In n (gnodes (mg m)) -> (decides (kind n) = true <-> In n (gdec (mg m)))) ->
  forall ninit' kind', exists m', read ninit' kind' decides (write kind m k b) = Ok m' /\
    same_model m m' (if b then length (gdec (mg m)) else length (gnodes (mg m))) (Nat.min (length (mstates m)) (Z.to_nat k)) /\
    is_locked m' = false /\ exists ops', m_hist ninit' kind' ops' m'.
Proof.
  intros S ninit kind ops m decides k b Hh Hd Hk ninit' kind'. pose proof (hist_LI _ _ _ _ Hh) as L. destruct (C43_held _ _ _ _ _ Hh) as [E1 _].
  assert (Lk : is_locked m = true) by (rewrite E1; now apply Nat.ltb_lt).
  destruct (read_write ninit m L Lk ninit' kind kind' decides Hk k b) as (m' & E & B & Lo). exists m'. split; auto.
  assert (En : num_of m k = Nat.min (length (mstates m)) (Z.to_nat k)) by (unfold num_of; lia). split; [|split].
  - rewrite <- En. exact (built_same ninit m L Lk ninit' kind kind' decides Hk k b m' B Lo).
  - unfold is_locked. now rewrite (bu_k _ _ _ _ _ _ _ B).
  - apply B.
Qed.
Print Assumptions C44_roundtrip.

(** Writing the model that was read (its symbols being of the classes in the file) gives the same archive again. *)
Theorem C44_again : forall S ninit kind ops (m : model S) decides k (b : bool), m_hist ninit kind ops m -> 0 < held ops 0 ->
  (forall n, In n (gnodes (mg m)) -> (decides (kind n) = true <-> In n (gdec (mg m)))) ->
  forall ninit' kind', (forall i n, at_pos m i n -> kind' i = kind n) ->
  exists m' m'', read ninit' kind' decides (write kind m k b) = Ok m' /\ lock m' = Some (m'', true) /\ write kind' m'' k b = write kind m k b.
Proof.
  intros S ninit kind ops m decides k b Hh Hd Hk ninit' kind' Hkk. pose proof (hist_LI _ _ _ _ Hh) as L. destruct (C43_held _ _ _ _ _ Hh) as [E1 _].
  assert (Lk : is_locked m = true) by (rewrite E1; now apply Nat.ltb_lt).
  destruct (read_write ninit m L Lk ninit' kind kind' decides Hk k b) as (m' & E & B & Lo).
  destruct (write_again ninit m L Lk ninit' kind kind' decides Hk k b m' B Lo) as (m'' & El & Ew); eauto.
Qed.
Print Assumptions C44_again.

(** [into_file] does not need the caller to lock; it releases its own lock and keeps the states of the decisions. *)
Theorem C44_into_file : forall S ninit kind ops (m : model S) k b, m_hist ninit kind ops m ->
  (0 < held ops 0 -> into_file kind m k b = Some (m, Some (write kind m k b))) /\
  (held ops 0 = 0 -> exists m1, lock m = Some (m1, true) /\ m_hist ninit kind (ops ++ [MLock]) m1 /\
     into_file kind m k b = Some (unlock m1, Some (write kind m1 k b)) /\ is_locked (unlock m1) = false /\
     gdec (mg (unlock m1)) = gdec (mg m) /\
     forall i st, nth_error (mstates m) i = Some st -> nth_error (mstates m1) i = Some st /\ exists st', nth_error (mstates (unlock m1)) i = Some st' /\
       forall n, In n (gdec (mg m)) -> state_of (mg m1) st n = state_of (mg m) st n /\ state_of (mg (unlock m1)) st' n = state_of (mg m) st n).
Proof.
  intros S ninit kind ops m k b Hh. pose proof (hist_LI _ _ _ _ Hh) as L. destruct (C43_held _ _ _ _ _ Hh) as [E1 _]. split.
  - intros Hd. unfold into_file. assert (Lk : is_locked m = true) by (rewrite E1; now apply Nat.ltb_lt). now rewrite Lk.
  - intros Hd. assert (Lk : is_locked m = false) by (rewrite E1, Hd; reflexivity). unfold into_file. rewrite Lk.
    destruct (lock_spec ninit m L) as (g & El & L1 & _ & Eg). rewrite El. set (m1 := Model g (mlocks m + 1) (mstates m)) in *.
    assert (H1 : m_hist ninit kind (ops ++ [MLock]) m1) by (eapply h_step with (b := true); [exact Hh|exact I|exact El]).
    assert (Hh1 : held (ops ++ [MLock]) 0 = 1).
    { assert (G : forall d, held (ops ++ [MLock]) d = held ops d + 1) by (clear; induction ops as [|[] r IH]; intros d; cbn [held app]; auto). now rewrite G, Hd. }
    destruct (C43_unlock _ _ _ _ _ H1) as (_ & _ & U). destruct (U Hh1) as (Ud & m2 & _ & _ & _ & _ & Us).
    exists m1. split; auto. split; auto. split; auto. split.
    { assert (Mk : mlocks m = 0) by (unfold is_locked in Lk; apply Nat.ltb_ge in Lk; lia). unfold unlock, is_locked, m1. cbn [mlocks mg mstates]. rewrite Mk. reflexivity. }
    split; [rewrite Ud; exact Eg|]. intros i st Hst. split; auto. destruct (Us i st Hst) as (st1 & st2 & A1 & _ & A3). exists st1. split; auto.
    intros n Hn. assert (Hn1 : In n (gdec (mg m1))) by (unfold m1; cbn [mg]; now rewrite Eg).
    pose proof (inc_wf _ (li_inc _ _ L)) as W0. pose proof (inc_wf _ (li_inc _ _ L1)) as W1.
    assert (Q : state_of (mg m1) st n = state_of (mg m) st n).
    { apply In_nth_error in Hn as [q Hq]. unfold state_of. rewrite (tidx_dec _ q n W0 Hq). rewrite (tidx_dec _ q n W1); auto. unfold m1; cbn [mg]. now rewrite Eg. }
    split; auto. destruct (A3 n) as [A4 _]; [now apply (wf_di _ W1)|]. destruct (A4 Hn1) as [A5 _]. congruence.
Qed.
Print Assumptions C44_into_file.

(** The reader checks ids only from above: a negative objective or any constraint id that is not a node's is undefined behaviour. *)
Theorem C44_ids_refuted : exists a1 a2 : archive nat,
  read (fun _ _ => 0) (fun _ => 0) (fun _ => true) a1 = UB /\ read (fun _ _ => 0) (fun _ => 0) (fun _ => true) a2 = UB /\
  a_obj a1 = Some (-1)%Z /\ a_cons a1 = [] /\ a_obj a2 = None /\ a_cons a2 = [1%Z] /\ length (a_adj a2) = 1.
Proof.
  exists (Archive [0] [(0%Z, [])] (Some (-1)%Z) [] 0 []), (Archive [0] [(0%Z, [])] None [1%Z] 0 []). repeat split; reflexivity.
Qed.
Print Assumptions C44_ids_refuted.

(** Decisions after other nodes, a removed symbol, a missing state. *)
Definition ex_ops : list (mop nat) :=
  [MDecision; MAdd [0]; MAdd [0; 1]; MName 1 true; MDecision; MRemove; MAdd [1; 3; 1]; MObjective 4; MConstraint 1; MConstraint 3; MResize 2; MSet 0 0 (Some 7); MSet 3 1 (Some 9); MLock].
Example C44_example : exists m : model nat, m_hist (fun n l => n + list_sum l) (fun n => n) ex_ops m /\ 0 < held ex_ops 0 /\
  (forall n, In n (gnodes (mg m)) -> ((n =? 0) || (n =? 3) = true <-> In n (gdec (mg m)))) /\
  gnodes (mg m) = [0; 3; 1; 4] /\
  write (fun n => n) m 5 false = Archive [0; 3; 1; 4] [(0, []); (1, []); (2, [0]); (3, [2; 1; 2])]%Z (Some 3%Z) [2; 1]%Z 2 [(0, 0, 7); (1, 1, 9)] /\
  write (fun n => n) m 1 true = Archive [0; 3] [(0, []); (1, [])]%Z None [1]%Z 1 [(0, 0, 7)] /\
  exists bytes, write_header [123; 125]%Z = Some bytes /\ length bytes = 64.
Proof.
  unfold ex_ops. eexists. split.
  { change [MDecision; MAdd [0]; MAdd [0; 1]; MName 1 true; MDecision; MRemove; MAdd [1; 3; 1]; MObjective 4; MConstraint 1; MConstraint 3; MResize 2; MSet 0 0 (Some 7); MSet 3 1 (Some 9); MLock]
      with (((((((((((((([] ++ [MDecision]) ++ [MAdd [0]]) ++ [MAdd [0; 1]]) ++ [MName 1 true]) ++ [MDecision]) ++ [MRemove]) ++ [MAdd [1; 3; 1]]) ++ [MObjective 4]) ++ [MConstraint 1]) ++ [MConstraint 3]) ++ [MResize 2]) ++ [MSet 0 0 (Some 7)]) ++ [MSet 3 1 (Some 9)]) ++ [@MLock nat]).
    run_hist. }
  split; [cbn; lia|]. split.
  { intros n Hn. assert (In n [0; 3; 1; 4]) by exact Hn. change (((n =? 0) || (n =? 3)) = true <-> In n [0; 3]).
    cbn [In] in *. rewrite orb_true_iff, !Nat.eqb_eq. intuition. }
  split; [reflexivity|]. split; [vm_compute; reflexivity|]. split; [vm_compute; reflexivity|].
  eexists. split; [vm_compute; reflexivity|reflexivity].
Qed.
