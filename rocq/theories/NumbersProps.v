(** C04, C05 and the number part of C47. *)
From Verif Require Import Base Num StateDataModel StateDataSpec StateDataProofs
  NumbersModel NumbersSpec NumbersProofs.


(** The nodes a program can construct. *)
Definition constructed (n : inode) : Prop :=
  (exists size lo hi, integer_node size lo hi = Some n) \/ (exists size, n = binary_node size).

Lemma constructed_ok n : constructed n ->
  (ilo n <= ihi n)%Z /\ (ibinary n = true -> ilo n = 0%Z /\ ihi n = 1%Z).
Proof.
  intros [(size & lo & hi & H)|(size & ->)]; [|cbn; split; [lia|auto]].
  unfold integer_node in H.
  destruct (Z.ltb_spec (match hi with Some u => u | None => maximum_upper_bound end)
                       (match lo with Some l => l | None => 0 end)%Z); [discriminate|].
  destruct (_ || _); [discriminate|]. injection H as <-. cbn. split; [lia|discriminate].
Qed.

(** C05: explicit values are accepted exactly when there are as many as elements and each is an
    integer within the bounds; otherwise an exception is thrown.  On success the state is exactly
    these values. *)
Theorem C05_number_init_exact :
  forall (n : inode) (data : list num),
  ((length data = isize n /\
    forall x, In x data -> exists z : Z, x = zq z /\ (ilo n <= z <= ihi n)%Z) /\
   number_init n data = Ok (a_init data))
  \/
  (~ (length data = isize n /\
      forall x, In x data -> exists z : Z, x = zq z /\ (ilo n <= z <= ihi n)%Z) /\
   number_init n data = Throw).
Proof.
  intros n data. destruct (number_init n data) as [d| |] eqn:E.
  - apply number_init_iff in E. destruct E as (H1 & H2 & ->). left. auto.
  - right. split; auto. intros [H1 H2].
    assert (number_init n data = Ok (a_init data)) by (apply number_init_iff; auto). congruence.
  - exfalso. eapply number_init_never_UB; eauto.
Qed.
Print Assumptions C05_number_init_exact.

(** C05: default and random initialisation always succeed on constructed nodes. *)
Theorem C05_number_init_default :
  forall n, constructed n ->
  number_init_default n = Ok (a_init (repeat (default_value n) (isize n))) /\
  forall draw, (forall k, ilo n <= draw k <= ihi n)%Z ->
    number_init_random n draw = Ok (a_init (map (fun k => zq (draw k)) (seq 0 (isize n)))).
Proof.
  intros n Hn. destruct (constructed_ok n Hn) as [Hle _]. split.
  - apply number_init_iff. rewrite repeat_length. repeat split; auto.
    intros x Hx. apply repeat_spec in Hx. subst. unfold default_value.
    destruct (_ && _)%bool eqn:E; eexists; split; try reflexivity; lia.
  - intros draw Hd. apply number_init_iff. rewrite map_length, seq_length.
    repeat split; auto. intros x Hx. apply in_map_iff in Hx. destruct Hx as [k [<- _]].
    eexists; split; [reflexivity|]. apply Hd.
Qed.
Print Assumptions C05_number_init_default.

(** C04: from any successful initialisation, any history with indices in range runs without
    undefined behaviour, ends in the array of integers the plain specification computes, and both
    that array and the committed one are within bounds. *)
Theorem C04_number_domain :
  forall (n : inode) (data : list num) (d : @adata num) (history : list nop),
  constructed n -> number_init n data = Ok d ->
  Forall (fun o => nop_allowed n o = true /\ nop_in_range (isize n) o) history ->
  exists initial committed current d',
    data = map zq initial /\
    zspec_run (ilo n) (ihi n) (initial, initial) history = Some (committed, current) /\
    n_run n d history = Some d' /\ abuf d' = map zq current /\
    length current = isize n /\
    Forall (fun z => ilo n <= z <= ihi n)%Z current /\
    Forall (fun z => ilo n <= z <= ihi n)%Z committed /\
    a_revert (zq 0) d' = Some (a_init (map zq committed)).
Proof.
  intros n data d history Hn Hi Hh. destruct (constructed_ok n Hn) as [_ Hb].
  apply number_init_iff in Hi. destruct Hi as (Hlen & Hv & ->).
  destruct (ints_of n data Hv) as [l [-> Hl]].
  assert (Hdom : zdom n l) by (split; [rewrite map_length in Hlen|]; auto).
  destruct (n_run_spec n Hb history l l (a_init (map zq l)))
    as (c' & l' & d' & H1 & H2 & H3 & H4 & H5 & H6); auto.
  { apply Inv_init. }
  exists l, c', l', d'. destruct H5 as [_ H5], H6 as [H6 H6'].
  do 7 (split; auto). destruct H3 as [A B].
  exact (revert_replay _ qeqb_spec (zq 0) (map zq c') d' A B).
Qed.
Print Assumptions C04_number_domain.

(** C04: from a state within the domain, a single move reports true exactly when the array
    changed, and a rejected value changes nothing. *)
Theorem C04_number_change_flag :
  forall (n : inode) (committed current : list Z) (d : @adata num) (o : nop),
  constructed n -> Inv qeqb (map zq committed) d -> abuf d = map zq current ->
  zdom n committed -> zdom n current ->
  nop_allowed n o = true -> nop_in_range (isize n) o -> o <> NCommit -> o <> NRevert ->
  (exists i v, o = NSet i v /\ ~ (ilo n <= v <= ihi n)%Z /\ n_step n d o = Throw) \/
  (exists d' b, n_step n d o = Ok (d', b) /\ (b = true <-> abuf d' <> abuf d)).
Proof.
  intros n c l d o Hn HI Hb Hc Hl Ha Hr H1 H2. destruct (constructed_ok n Hn) as [_ Hbin].
  destruct (n_step_spec n c l d o HI Hb Hc Hl Ha Hbin Hr)
    as (c' & l' & Hs & [(Ht & -> & ->)|(d' & b & Ho & HI' & Hb' & Hf)]).
  - left. destruct o as [i v|i j|i|i|i| |]; cbn in Ht; try congruence.
    + exists i, v. split; auto. split; auto. unfold set_value in Ht.
      rewrite is_valid_zq in Ht. intros Hv.
      replace ((ilo n <=? v) && (v <=? ihi n))%Z with true in Ht by lia.
      cbn in Ht. destruct (a_set _ _ _ _); discriminate.
    + unfold exchange in Ht. destruct (a_exchange _ _ _ _); discriminate.
    + unfold flip in Ht. destruct (a_get d i); [|discriminate]. destruct (a_set _ _ _ _); discriminate.
    + unfold bset in Ht. destruct (a_set _ _ _ _); discriminate.
    + unfold bunset in Ht. destruct (a_set _ _ _ _); discriminate.
  - right. exists d', b. split; auto. rewrite Hb, Hb'.
    assert (Hinj : map zq l' = map zq l <-> l' = l).
    { split; [apply map_zq_inj|congruence]. }
    rewrite Hinj. destruct o; congruence || auto.
Qed.
Print Assumptions C04_number_change_flag.

Example C04_example :
  exists n d, integer_node 3 (Some (-2)%Z) (Some 5%Z) = Some n /\
    number_init n [zq (-2); zq 0; zq 5] = Ok d /\
    let h := [NSet 0 6; NSet 0 4; NExchange 0 2; NCommit; NSet 1 (-2); NRevert; NSet 2 5]%Z in
    Forall (fun o => nop_allowed n o = true /\ nop_in_range (isize n) o) h /\
    zspec_run (-2) 5 ([-2; 0; 5], [-2; 0; 5])%Z h = Some ([5; 0; 4], [5; 0; 5])%Z.
Proof.
  do 2 eexists. split; [reflexivity|]. split.
  - apply number_init_iff. repeat split. intros x [<-|[<-|[<-|[]]]]; eexists; split; reflexivity || (cbn; lia).
  - cbn. split; [|reflexivity]. repeat constructor.
Qed.

Example C04_example_binary :
  Forall (fun o => nop_allowed (binary_node 2) o = true /\ nop_in_range 2 o)
    [NFlip 0; NOn 1; NExchange 0 1; NCommit; NOff 1; NRevert] /\
  zspec_run 0 1 ([0; 0], [0; 0])%Z [NFlip 0; NOn 1; NExchange 0 1; NCommit; NOff 1; NRevert]
  = Some ([1; 1], [1; 1])%Z.
Proof. split; [repeat constructor|reflexivity]. Qed.

Example C05_example :
  number_init (binary_node 2) [zq 1; Q2Qc (1 # 2)] = Throw /\
  number_init (binary_node 2) [zq 1; zq 2] = Throw /\
  number_init (binary_node 2) [zq 1] = Throw.
Proof. repeat split; vm_compute; reflexivity. Qed.

(** C47, numbers: a default move on a nonempty binary decision, or on a nonempty integer decision
    with a nonnegative lower bound, succeeds for every pair of draws in range and stays in the
    domain. *)
Theorem C47_number_default_move :
  forall (n : inode) (committed current : list Z) (d : @adata num) (i : nat) (v : Z),
  constructed n -> Inv qeqb (map zq committed) d -> abuf d = map zq current ->
  zdom n committed -> zdom n current -> i < isize n -> (0 <= ilo n)%Z -> (ilo n <= v <= ihi n)%Z ->
  (exists d' b, integer_default_move n d i v = Ok (d', b) /\ abuf d' = map zq (lset i v current)) /\
  (ibinary n = true -> exists d' b x, binary_default_move d i = Ok (d', b) /\
     nth_error current i = Some x /\ abuf d' = map zq (lset i (1 - x)%Z current)).
Proof.
  intros n c l d i v Hn HI Hb Hc Hl Hi Hlo Hv. destruct (constructed_ok n Hn) as [_ Hbin].
  assert (Hz : (length (abuf d) =? 0) = false).
  { rewrite Hb, map_length. destruct Hl as [-> _]. lia. }
  split.
  - destruct (n_step_spec n c l d (NSet i v) HI Hb Hc Hl eq_refl Hbin Hi)
      as (c' & l' & Hs & Hcase). unfold integer_default_move. rewrite Hz.
    replace (ilo n <? 0)%Z with false by lia. cbn [orb].
    cbn [zspec_op] in Hs. replace ((ilo n <=? v) && (v <=? ihi n))%Z with true in Hs by lia.
    cbn [negb] in Hs. rewrite (proj2 (Nat.ltb_lt _ _)) in Hs by (destruct Hl; lia).
    injection Hs as <- <-. destruct Hcase as [(Ht & _ & _)|(d' & b & Ho & _ & Hb' & _)].
    + exfalso. cbn in Ht. unfold set_value in Ht. rewrite is_valid_zq in Ht.
      replace ((ilo n <=? v) && (v <=? ihi n))%Z with true in Ht by lia.
      cbn in Ht. destruct (a_set _ _ _ _); discriminate.
    + exists d', b. auto.
  - intros Hbi. destruct (n_step_spec n c l d (NFlip i) HI Hb Hc Hl Hbi Hbin Hi)
      as (c' & l' & Hs & Hcase). unfold binary_default_move. rewrite Hz.
    cbn [zspec_op] in Hs. destruct (nth_error l i) as [x|] eqn:Ex; [|discriminate].
    destruct Hcase as [(Ht & _ & _)|(d' & b & Ho & _ & Hb' & _)].
    + exfalso. cbn in Ht. unfold flip in Ht. destruct (a_get d i); [|discriminate].
      destruct (a_set _ _ _ _); discriminate.
    + exists d', b, x. repeat split; auto. congruence.
Qed.
Print Assumptions C47_number_default_move.

(** C47 fails for integer decisions with a negative lower bound (the bound is converted to
    [std::size_t]) and for empty decisions ([size - 1] wraps around). *)
Theorem C47_number_default_move_refuted :
  (exists n d, integer_node 1 (Some (-5)%Z) (Some 5%Z) = Some n /\ number_init_default n = Ok d /\
     forall i v, integer_default_move n d i v = UB) /\
  (exists d, number_init_default (binary_node 0) = Ok d /\ forall i, binary_default_move d i = UB).
Proof.
  split.
  - do 2 eexists. split; [reflexivity|]. split; [vm_compute; reflexivity|]. intros. reflexivity.
  - eexists. split; [reflexivity|]. intros. reflexivity.
Qed.
Print Assumptions C47_number_default_move_refuted.
