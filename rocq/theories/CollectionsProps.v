(** C06, C07, C08 and the list/set part of C47; C48. *)
From Verif Require Import Base Num StateDataModel StateDataSpec StateDataProofs Replay
  CollectionsModel CollectionsSpec CollectionsProofs.

(** C06: from any initial state, any history whose arguments meet the preconditions runs, and the
    exposed array is the one the plain specification gives, has between min and max elements, all
    distinct integers in [0, n). *)
Theorem C06_collection_valid :
  forall (mv lo hi : nat) (n : cnode) (d : cdata num) (history : list cop) (s : cstate),
  collection_node mv lo hi = Some n -> c_initial n d ->
  cspec_run lo hi ((cel d, csize d), (cel d, csize d)) history = Some s ->
  exists d', c_run n d history = Some d' /\
    snd s = (cel d', csize d') /\
    length (c_view d') = csize d' /\ lo <= csize d' <= hi /\ NoDup (c_view d') /\
    forall x, In x (c_view d') -> exists z, x = zq z /\ (0 <= z < Z.of_nat mv)%Z.
Proof.
  intros mv lo hi n d h s Hn Hd Hs.
  destruct (c_initial_ok n d) as [HI HC]; eauto.
  assert (Hf : cmin n = lo /\ cmax n = hi /\ cmaxval n = mv).
  { unfold collection_node in Hn. destruct (hi <? lo); [discriminate|].
    destruct (mv <? hi); [discriminate|]. injection Hn as <-. auto. }
  destruct Hf as (<- & <- & <-).
  destruct (c_run_spec n h _ d s HC HI eq_refl Hs) as (d' & Hr & HC' & HI' & Hsn).
  exists d'. split; auto. split; auto. destruct s as [[c k0] [l k]]. cbn in Hsn.
  injection Hsn as -> ->. destruct HC' as (P1 & P2 & P3 & P4 & P5 & P6).
  assert (Hnd : NoDup (cel d')) by (eapply Permutation_NoDup; eauto).
  unfold c_view. split.
  { rewrite firstn_length. apply Permutation_length in P1. lia. }
  split; auto. split.
  - rewrite <- (firstn_skipn (csize d') (cel d')) in Hnd.
    clear -Hnd. induction (firstn (csize d') (cel d')) as [|a l IH]; [constructor|].
    cbn in Hnd. inversion_clear Hnd as [|? ? Ha Hl]. constructor; auto.
    intros Hin. apply Ha. apply in_or_app. auto.
  - intros x Hx. apply P3. eapply Permutation_in; [symmetry; eauto|].
    rewrite <- (firstn_skipn (csize d') (cel d')). apply in_or_app. auto.
Qed.
Print Assumptions C06_collection_valid.

(** C07: after any such history, the reported updates replay from the committed exposed array to the
    current one, the size difference is exact, and revert gives back all committed items (exposed
    and hidden) in order with nothing pending. *)
Theorem C07_collection_revert :
  forall (mv lo hi : nat) (n : cnode) (d : cdata num) (history : list cop) (s : cstate),
  collection_node mv lo hi = Some n -> c_initial n d ->
  cspec_run lo hi ((cel d, csize d), (cel d, csize d)) history = Some s ->
  let '((citems, ck), (items, k)) := s in
  exists d', c_run n d history = Some d' /\ c_view d' = firstn k items /\
    replay qeqb (firstn ck citems) (cprev d') = Some (firstn k items) /\
    c_size_diff d' = (Z.of_nat k - Z.of_nat ck)%Z /\
    c_revert d' = Some (c_new citems ck) /\
    c_commit d' = c_new items k.
Proof.
  intros mv lo hi n d h s Hn Hd Hs.
  destruct (c_initial_ok n d) as [HI HC]; eauto.
  assert (Hf : cmin n = lo /\ cmax n = hi /\ cmaxval n = mv).
  { unfold collection_node in Hn. destruct (hi <? lo); [discriminate|].
    destruct (mv <? hi); [discriminate|]. injection Hn as <-. auto. }
  destruct Hf as (<- & <- & <-).
  destruct (c_run_spec n h _ d s HC HI eq_refl Hs) as (d' & Hr & HC' & HI' & Hsn).
  destruct s as [[c k0] [l k]]. cbn in Hsn, HI'. injection Hsn as -> ->.
  exists d'. pose proof (CInv_revert _ qeqb_spec _ _ _ HI') as Hrev.
  destruct HI' as (E1 & E2 & E3 & E4 & E5 & E6).
  repeat split; auto. unfold c_size_diff. congruence.
Qed.
Print Assumptions C07_collection_revert.

(** C08: exact acceptance of explicit contents. *)
Theorem C08_collection_init_exact :
  forall (n : cnode) (contents : list num),
  let valid := cmin n <= length contents <= cmax n /\ NoDup contents /\
    forall x, In x contents -> exists z, x = zq z /\ (0 <= z < Z.of_nat (cmaxval n))%Z in
  (valid -> exists d, collection_init n contents = Ok d /\ c_view d = contents /\ cprev d = []) /\
  (~ valid -> collection_init n contents = Throw).
Proof.
  intros n contents valid. split.
  - intros H. destruct (collection_init_ok n contents H) as (d & H1 & H2 & H3 & _). eauto.
  - apply collection_init_throw.
Qed.
Print Assumptions C08_collection_init_exact.

Example C06_example :
  exists n, collection_node 5 1 4 = Some n /\
  cspec_run 1 4 ((cel (set_init_default n), 1), (cel (set_init_default n), 1))
    [CExchange 0 4; CGrow; CGrow; CRotate 0 2; CCommit; CShrink; CExchange 1 3; CRevert; CExchange 0 1]
  = Some ((map nq [2; 4; 1; 3; 0], 3), (map nq [4; 2; 1; 3; 0], 3)).
Proof. eexists. split; [reflexivity|]. vm_compute. reflexivity. Qed.
Example C07_example :
  exists d', c_run (CNode 5 1 4) (set_init_default (CNode 5 1 4))
    [CExchange 0 4; CGrow; CGrow; CRotate 0 2; CCommit; CShrink; CExchange 1 3; CGrow; CRotate 2 0] = Some d' /\
    cel d' = map nq [3; 1; 2; 4; 0] /\ length (cprev d') = 6.
Proof. eexists. split; [vm_compute; reflexivity|]. split; vm_compute; reflexivity. Qed.
Example C08_example :
  collection_init (CNode 4 0 3) (map nq [3; 1]) = Ok (c_new (map nq [3; 1; 0; 2]) 2) /\
  collection_init (CNode 4 0 3) (map nq [3; 3]) = Throw /\
  collection_init (CNode 4 0 3) [Q2Qc (1#2)] = Throw.
Proof. repeat split; vm_compute; reflexivity. Qed.

(** C47, lists and sets: default moves are ordinary moves, for every draw in range. *)
Theorem C47_collection_default_move :
  forall (mv lo hi : nat) (n : cnode) (c : list num) (k0 : nat) (d : cdata num),
  collection_node mv lo hi = Some n -> CInv qeqb c k0 d ->
  CInvariant n ((c, k0), (cel d, csize d)) ->
  (forall i j, i < csize d -> j < csize d -> exists d', list_default_move d i j = Some d' /\
     CInv qeqb c k0 d' /\ CInvariant n ((c, k0), (cel d', csize d'))) /\
  (forall coin k, csize d <= k < hi \/ coin = false \/ csize d = hi ->
     exists d', set_default_move n d coin k = Some d' /\
     CInv qeqb c k0 d' /\ CInvariant n ((c, k0), (cel d', csize d'))).
Proof.
  intros mv lo hi n c k0 d Hn HI HC.
  assert (Hf : cmin n = lo /\ cmax n = hi /\ cmaxval n = mv).
  { unfold collection_node in Hn. destruct (hi <? lo); [discriminate|].
    destruct (mv <? hi); [discriminate|]. injection Hn as <-. auto. }
  destruct Hf as (<- & <- & <-).
  assert (Hlen : csize d <= length (cel d)) by apply HI.
  assert (Hll : length (cel d) = length c).
  { destruct HC as (P & _). symmetry. now apply Permutation_length. }
  assert (Hstep : forall o d1 k1, CInv qeqb c k0 d1 -> CInvariant n ((c, k0), (cel d1, csize d1)) ->
    o <> CCommit -> o <> CRevert ->
    cspec_op (cmin n) (cmax n) ((c, k0), (cel d1, csize d1)) o = Some k1 ->
    exists d', c_step n d1 o = Some d' /\ CInv qeqb c k0 d' /\
      CInvariant n ((c, k0), (cel d', csize d')) /\ snd k1 = (cel d', csize d')).
  { intros o d1 k1 HI1 HC1 Ho1 Ho2 Hs. pose proof (cspec_op_inv _ _ _ _ HC1 Hs) as HC2.
    destruct (c_step_spec n c k0 d1 o k1) as (d' & Hd & HI' & Hk); auto;
      try (destruct HC1 as (_ & _ & _ & ? & ? & ?); lia).
    exists d'. split; auto.
    assert (Hfst : fst k1 = (c, k0)).
    { destruct o; cbn in Hs; try congruence;
        repeat match type of Hs with context [if ?b then _ else _] => destruct b end; try discriminate;
        injection Hs as <-; reflexivity. }
    destruct k1 as [[c1 k1] [l1 k2]]. cbn in *. injection Hfst as -> ->. injection Hk as -> ->. auto. }
  split.
  - intros i j Hi Hj. unfold list_default_move.
    replace (csize d =? 0) with false by lia.
    destruct (Hstep (CExchange i j) d ((c, k0), (swap_elems i j (cel d), csize d)))
      as (d' & Hd & H1 & H2 & _); auto; try discriminate.
    + cbn. rewrite !(proj2 (Nat.ltb_lt _ _)) by lia. reflexivity.
    + exists d'. auto.
  - intros coin k Hk. unfold set_default_move.
    destruct (Nat.ltb_spec (csize d) (cmax n)) as [Hlt|Hge]; cbn [andb].
    + destruct coin.
      * assert (Hk' : csize d <= k < cmax n) by (destruct Hk as [?|[?|?]]; [auto|discriminate|lia]).
        destruct HC as (P1 & P2 & P3 & P4 & P5 & P6).
        destruct (Hstep (CExchange (csize d) k) d ((c, k0), (swap_elems (csize d) k (cel d), csize d)))
          as (d1 & Hd1 & HI1 & HC1 & Hs1); auto; try discriminate.
        { cbn; tauto. }
        { cbn. rewrite !(proj2 (Nat.ltb_lt _ _)) by lia. reflexivity. }
        cbn in Hd1, Hs1. rewrite Hd1. injection Hs1 as Hs1 Hs2.
        destruct (Hstep CGrow d1 ((c, k0), (cel d1, S (csize d1)))) as (d2 & Hd2 & HI2 & HC2 & _);
          auto; try discriminate.
        { cbn. rewrite (proj2 (Nat.ltb_lt _ _)) by lia. reflexivity. }
        exists d2. auto.
      * destruct (Nat.ltb_spec (cmin n) (csize d)).
        -- destruct (Hstep CShrink d ((c, k0), (cel d, csize d - 1))) as (d2 & Hd2 & HI2 & HC2 & _);
             auto; try discriminate.
           { cbn. rewrite (proj2 (Nat.ltb_lt _ _)) by lia. reflexivity. }
           exists d2. auto.
        -- exists d. auto.
    + destruct (Nat.ltb_spec (cmin n) (csize d)).
      * destruct (Hstep CShrink d ((c, k0), (cel d, csize d - 1))) as (d2 & Hd2 & HI2 & HC2 & _);
          auto; try discriminate.
        { cbn. rewrite (proj2 (Nat.ltb_lt _ _)) by lia. reflexivity. }
        exists d2. auto.
      * exists d. auto.
Qed.
Print Assumptions C47_collection_default_move.

(** C47 fails on an empty list: [size - 1] wraps around. *)
Theorem C47_list_default_move_refuted :
  exists n, collection_node 3 0 3 = Some n /\ exists d, collection_init n [] = Ok d /\
    forall i j, list_default_move d i j = None.
Proof.
  eexists. split; [reflexivity|]. eexists. split; [vm_compute; reflexivity|]. reflexivity.
Qed.
Print Assumptions C47_list_default_move_refuted.

(** C48: default moves of a set whose maximum size is below the number of items never expose the
    items at hidden positions from the maximum size on, so not every set is reachable: here the
    sets {1} and {2} of SetNode(3, 0, 1). *)
Fixpoint set_moves (n : cnode) (d : cdata num) (draws : list (bool * nat)) : option (cdata num) :=
  match draws with
  | [] => Some d
  | (b, k) :: r => match set_default_move n d b k with Some d' => set_moves n d' r | None => None end
  end.
Theorem C48_set_default_moves_reach_all_refuted :
  exists n, collection_node 3 0 1 = Some n /\
    forall draws d', Forall (fun p => snd p = 0) draws ->
      set_moves n (set_init_default n) draws = Some d' -> c_view d' = [] \/ c_view d' = [nq 0].
Proof.
  eexists. split; [reflexivity|].
  set (n := CNode 3 0 1).
  assert (H : forall draws d d', Forall (fun p => snd p = 0) draws -> cel d = qrange 3 -> csize d <= 1 ->
    set_moves n d draws = Some d' -> c_view d' = [] \/ c_view d' = [nq 0]).
  { induction draws as [|[b k] r IH]; intros d d' Hf He Hs H; cbn [set_moves] in H.
    - injection H as <-. unfold c_view. rewrite He.
      destruct (csize d) as [|[|]]; [left|right|lia]; reflexivity.
    - inversion_clear Hf as [|? ? Hk Hr]. cbn in Hk. subst k.
      destruct (set_default_move n d b 0) as [d1|] eqn:E; [|discriminate].
      assert (Hd1 : cel d1 = qrange 3 /\ csize d1 <= 1).
      { unfold set_default_move in E. cbn [cmax cmin n] in E.
        destruct (Nat.ltb_spec (csize d) 1) as [Hlt|Hge]; cbn [andb] in E.
        - assert (H0 : csize d = 0) by lia. rewrite H0 in E. destruct b; cbn [andb] in E.
          + unfold c_exchange in E. cbn in E. unfold cn_grow in E. rewrite H0 in E. cbn in E.
            unfold c_grow in E. rewrite He, H0 in E. cbn in E. injection E as <-. cbn. auto.
          + cbn in E. injection E as <-. auto.
        - rewrite (proj2 (Nat.ltb_lt 0 (csize d))) in E by lia. unfold cn_shrink in E. cbn in E.
          rewrite (proj2 (Nat.ltb_lt 0 (csize d))) in E by lia. cbn in E. unfold c_shrink in E.
          assert (H0 : csize d = 1) by lia. rewrite H0, He in E. cbn in E.
          injection E as <-. cbn. auto. }
      destruct Hd1. eapply IH; eauto. }
  intros draws d' Hf. apply H; auto.
Qed.
Print Assumptions C48_set_default_moves_reach_all_refuted.
