(** C20: slices select the same elements as Python. *)
From Verif Require Import Base SliceModel SliceSpec SliceProofs.
Local Open Scope Z_scope.

(** Construction, fitting and enumeration select exactly Python's indices, in Python's order; the
    reported size is their number.  [SMIN < step]: the code negates the step. *)
Theorem C20_slice_python : forall start stop step n,
  ossize start -> ossize stop -> ssize step -> step <> 0 -> SMIN < step -> 0 <= n <= SMAX ->
  exists s f k, mk_slice start stop (Some step) = Ok s /\ fit_at s n = Ok f /\ fit s n = Ok f /\
    slice_size f = Ok k /\ 0 <= k <= n /\
    length (slice_indices f k) = Z.to_nat k /\
    (forall x, In x (slice_indices f k) <-> py_selects n start stop step x) /\
    walks step (slice_indices f k).
Proof.
  intros start stop step n H1 H2 H3 H0 H4 Hn.
  destruct (fit_python start stop step n H1 H2 H3 H0 H4 Hn) as [s [f [k [A [B [C [D [K E]]]]]]]].
  exists s, f, k. split; [exact A|]. split.
  { unfold fit_at. destruct (Z.ltb_spec n 0); [lia|].
    unfold mk_slice in A. cbn [value_or] in A. destruct (Z.eqb_spec step 0); [lia|].
    injection A as <-. cbn [sstep]. destruct (Z.eqb_spec step 0); [lia|]. exact B. }
  split; [exact B|]. split; [exact C|]. split; [exact K|]. split; [apply indices_length|].
  split; [exact E|]. rewrite <- D. apply indices_walks. congruence.
Qed.
Print Assumptions C20_slice_python.

(** An absent step is 1, and a zero step or negative length is refused. *)
Theorem C20_slice_checks : forall start stop,
  mk_slice start stop None = mk_slice start stop (Some 1) /\
  mk_slice start stop (Some 0) = Throw /\
  forall s n, n < 0 -> fit_at s n = Throw.
Proof.
  intros. split; [reflexivity|]. split; [reflexivity|]. intros s n H. unfold fit_at.
  destruct (Z.ltb_spec n 0); [reflexivity|lia].
Qed.
Print Assumptions C20_slice_checks.

(** The size of a slice that has not been fitted is the number of terms of its progression, except
    for the extreme arguments on which the code overflows. *)
Theorem C20_unfitted_size : forall s,
  ssize (sstart s) -> ssize (sstop s) -> ssize (sstep s) -> sstep s <> 0 ->
  ~ (sstep s = SMIN) -> ~ (sstep s < 0 /\ sstart s = 0 /\ sstop s = SMIN) ->
  ~ (0 < sstep s /\ sstart s = SMIN /\ sstop s = 0) ->
  exists k, slice_size s = Ok k /\ 0 <= k /\ forall m, 0 <= m ->
    ((if 0 <? sstep s then sstart s + m * sstep s < sstop s
      else sstop s < sstart s + m * sstep s) <-> m < k).
Proof.
  intros s H1 H2 H3 H0 N1 N2 N3. destruct (size_terms s H1 H2 H3 H0) as [k [E T]].
  - intros A B. split; [unfold ssize, SMIN in *; lia|]. tauto.
  - intros A B. tauto.
  - exists k. auto.
Qed.
Print Assumptions C20_unfitted_size.

(** [Slice(0, None, -1).size()] overflows, and so does a step of [SMIN] even after fitting. *)
Theorem C20_size_overflow_refuted :
  (exists s, mk_slice (Some 0) None (Some (-1)) = Ok s /\ slice_size s = UB) /\
  (exists s f, mk_slice None None (Some SMIN) = Ok s /\ fit s 3 = Ok f /\ slice_size f = UB).
Proof.
  split; [eexists; split; [vm_compute; reflexivity|vm_compute; reflexivity]|].
  eexists; eexists. split; [vm_compute; reflexivity|].
  split; [vm_compute; reflexivity|]. vm_compute; reflexivity.
Qed.
Print Assumptions C20_size_overflow_refuted.

(** Fitting twice is harmless for positive steps. *)
Theorem C20_fit_idempotent : forall s n f, 0 < sstep s -> 0 <= n -> fit s n = Ok f -> fit f n = Ok f.
Proof.
  intros [a b st] n f Hs Hn. unfold fit, mk_slice. cbn [sstart sstop sstep value_or] in *.
  destruct (Z.eqb_spec st 0); [lia|]. intros E. injection E as <-. cbn [sstart sstop sstep value_or].
  destruct (Z.eqb_spec st 0); [lia|].
  assert (I : forall z, fit_bound (fit_bound z st n) st n = fit_bound z st n).
  { intros z. unfold fit_bound. destruct (Z.ltb_spec st 0); [lia|].
    destruct (Z.ltb_spec z 0); [destruct (Z.ltb_spec (z + n) 0)|destruct (Z.leb_spec n z)].
    - destruct (Z.ltb_spec 0 0); [lia|]. destruct (Z.leb_spec n 0); lia.
    - destruct (Z.ltb_spec (z + n) 0); [lia|]. destruct (Z.leb_spec n (z + n)); lia.
    - destruct (Z.ltb_spec n 0); [lia|]. destruct (Z.leb_spec n n); lia.
    - destruct (Z.ltb_spec z 0); [lia|]. destruct (Z.leb_spec n z); lia. }
  now rewrite !I.
Qed.
Print Assumptions C20_fit_idempotent.

(** It is not harmless for negative steps: the stop marker -1 is taken for "last element". *)
Theorem C20_fit_idempotent_refuted : exists s f n,
  mk_slice None None (Some (-1)) = Ok s /\ fit s n = Ok f /\ slice_size f = Ok n /\
  exists f2, fit f n = Ok f2 /\ slice_size f2 = Ok 0 /\ 0 < n.
Proof.
  eexists; eexists; exists 3. split; [vm_compute; reflexivity|]. split; [vm_compute; reflexivity|].
  split; [vm_compute; reflexivity|]. eexists. split; [vm_compute; reflexivity|].
  split; [vm_compute; reflexivity|lia].
Qed.
Print Assumptions C20_fit_idempotent_refuted.

(** [x[8:-9:-3]] on a length 7 sequence: 6, 3, 0. *)
Example C20_example :
  (match mk_slice (Some 8) (Some (-9)) (Some (-3)) with
   | Ok s => match fit s 7 with Ok f => rbind (slice_size f) (fun k => Ok (slice_indices f k)) | _ => UB end
   | _ => UB end) = Ok [6; 3; 0].
Proof. vm_compute. reflexivity. Qed.
Example C20_example_hyps : ossize (Some 8) /\ ossize (Some (-9)) /\ ssize (-3) /\ SMIN < -3 /\ 7 <= SMAX.
Proof. vm_compute. repeat split; congruence. Qed.
Example C20_example_spec : py_selects 7 (Some 8) (Some (-9)) (-3) 3 /\ ~ py_selects 7 (Some 8) (Some (-9)) (-3) 4.
Proof.
  unfold py_selects, py_before_stop, py_first, py_norm.
  change (0 <? -3) with false. change (-9 <? 0) with true. change (8 <? 0) with false. split.
  - split; [lia|]. split; [lia|]. exists 1. lia.
  - intros [_ [_ [m H]]]. lia.
Qed.
