From Verif Require Import Base Num StateDataModel StateDataSpec StateDataProofs NumbersModel NumbersSpec.


Notation InvQ := (Inv qeqb).

Lemma is_valid_iff n x :
  is_valid n x = true <-> exists z, x = zq z /\ (ilo n <= z <= ihi n)%Z.
Proof.
  unfold is_valid. split.
  - intros H. apply andb_true_iff in H. destruct H as [H H3].
    apply andb_true_iff in H. destruct H as [H1 H2].
    destruct (qeqb_spec (qround x) x) as [Hr|]; [|discriminate].
    apply qround_int in Hr. destruct Hr as [z ->].
    destruct (qleb_spec (zq (ilo n)) (zq z)) as [Ha|]; [|discriminate].
    destruct (qleb_spec (zq z) (zq (ihi n))) as [Hb|]; [|discriminate].
    rewrite zq_le in Ha, Hb. exists z; split; auto.
  - intros [z [-> [Ha Hb]]]. rewrite <- zq_le in Ha, Hb.
    destruct (qleb_spec (zq (ilo n)) (zq z)); [|contradiction].
    destruct (qleb_spec (zq z) (zq (ihi n))); [|contradiction].
    rewrite (proj2 (qround_int (zq z))) by (eexists; reflexivity).
    now rewrite qeqb_refl.
Qed.

Lemma is_valid_zq n z : is_valid n (zq z) = ((ilo n <=? z) && (z <=? ihi n))%Z.
Proof.
  destruct (is_valid n (zq z)) eqn:E.
  - apply is_valid_iff in E. destruct E as [w [Hw H]]. apply zq_inj in Hw. subst. lia.
  - destruct (_ && _)%bool eqn:E2; auto.
    assert (is_valid n (zq z) = true) by (apply is_valid_iff; exists z; split; [auto|lia]).
    congruence.
Qed.

Lemma number_init_iff n data d :
  number_init n data = Ok d <->
  length data = isize n /\
  (forall x, In x data -> exists z, x = zq z /\ (ilo n <= z <= ihi n)%Z) /\ d = a_init data.
Proof.
  unfold number_init. destruct (Nat.eqb_spec (length data) (isize n)) as [He|He]; cbn.
  - destruct (existsb _ data) eqn:E.
    + split; [discriminate|]. intros (_ & H & _). exfalso.
      apply existsb_exists in E. destruct E as [x [Hx Hv]]. specialize (H x Hx).
      apply is_valid_iff in H. rewrite H in Hv. discriminate.
    + split.
      * intros H. injection H as <-. repeat split; auto. intros x Hx.
        apply is_valid_iff. destruct (is_valid n x) eqn:Ev; auto.
        assert (existsb (fun v => negb (is_valid n v)) data = true).
        { apply existsb_exists. exists x. rewrite Ev. auto. }
        congruence.
      * intros (_ & _ & ->). reflexivity.
  - split; [discriminate|]. intros (H & _). congruence.
Qed.

Lemma number_init_never_UB n data : number_init n data <> UB.
Proof. unfold number_init. destruct (negb _); [discriminate|]. destruct (existsb _ _); discriminate. Qed.

Definition zdom (n : inode) (l : list Z) : Prop :=
  length l = isize n /\ Forall (fun z => ilo n <= z <= ihi n)%Z l.

Lemma ints_of n data :
  (forall x, In x data -> exists z, x = zq z /\ (ilo n <= z <= ihi n)%Z) ->
  exists l, data = map zq l /\ Forall (fun z => ilo n <= z <= ihi n)%Z l.
Proof.
  induction data as [|x data IH]; intros H.
  - exists []. auto.
  - destruct (H x) as [z [-> Hz]]; [cbn; auto|].
    destruct IH as [l [-> Hl]]; [intros; apply H; cbn; auto|].
    exists (z :: l). auto.
Qed.

Lemma Forall_lset {A} (P : A -> Prop) i x (l : list A) : P x -> Forall P l -> Forall P (lset i x l).
Proof.
  intros Hx. revert i. induction l as [|h t IH]; intros [|i] H; cbn; inversion_clear H; auto.
Qed.

Local Opaque Z.sub.
Lemma zspec_dom n c l c' l' o :
  zdom n c -> zdom n l -> nop_allowed n o = true ->
  (ibinary n = true -> ilo n = 0%Z /\ ihi n = 1%Z) ->
  zspec_op (ilo n) (ihi n) (c, l) o = Some (c', l') -> zdom n c' /\ zdom n l'.
Proof.
  intros Hc Hl Ha Hb. unfold zspec_op.
  destruct o as [i v|i j|i|i|i| |]; cbn in Ha.
  - destruct (_ && _)%bool eqn:E; cbn.
    + destruct (_ <? _); [|discriminate]. intros H. injection H as <- <-. split; auto.
      destruct Hl. split; [now rewrite lset_length|]. apply Forall_lset; auto. lia.
    + intros H. injection H as <- <-. auto.
  - destruct (nth_error l i) eqn:Ei; [|discriminate]. destruct (nth_error l j) eqn:Ej; [|discriminate].
    intros H. injection H as <- <-. split; auto. destruct Hl as [H1 H2].
    split; [now rewrite !lset_length|]. rewrite Forall_forall in H2.
    apply Forall_lset; [apply H2; eapply nth_error_In; eauto|].
    apply Forall_lset; [apply H2; eapply nth_error_In; eauto|]. now apply Forall_forall.
  - destruct (nth_error l i) eqn:Ei; [|discriminate].
    intros H. injection H as <- <-. split; auto. destruct Hl as [H1 H2].
    split; [now rewrite !lset_length|]. destruct (Hb Ha) as [E1 E2].
    apply Forall_lset; auto. rewrite Forall_forall in H2.
    apply nth_error_In in Ei. apply H2 in Ei. cbv beta in *. lia.
  - destruct (_ <? _); [|discriminate]. intros H. injection H as <- <-. split; auto.
    destruct Hl. split; [now rewrite lset_length|]. destruct (Hb Ha). apply Forall_lset; auto. lia.
  - destruct (_ <? _); [|discriminate]. intros H. injection H as <- <-. split; auto.
    destruct Hl. split; [now rewrite lset_length|]. destruct (Hb Ha). apply Forall_lset; auto. lia.
  - intros H. injection H as <- <-. auto.
  - intros H. injection H as <- <-. auto.
Qed.

Lemma map_zq_inj l1 l2 : map zq l1 = map zq l2 -> l1 = l2.
Proof.
  revert l2. induction l1; destruct l2; cbn; intros E; try discriminate; auto.
  assert (E1 : zq a = zq z) by congruence. assert (E2 : map zq l1 = map zq l2) by congruence.
  apply zq_inj in E1. f_equal; auto.
Qed.

(** Every operation is an array operation (or a rejected call). *)
Lemma n_step_spec n c l d o :
  InvQ (map zq c) d -> abuf d = map zq l ->
  zdom n c -> zdom n l -> nop_allowed n o = true ->
  (ibinary n = true -> ilo n = 0%Z /\ ihi n = 1%Z) -> nop_in_range (isize n) o ->
  exists c' l', zspec_op (ilo n) (ihi n) (c, l) o = Some (c', l') /\
    ((n_step n d o = Throw /\ c' = c /\ l' = l) \/
     exists d' b, n_step n d o = Ok (d', b) /\ InvQ (map zq c') d' /\ abuf d' = map zq l' /\
       match o with NCommit | NRevert => True | _ => b = true <-> l' <> l end).
Proof.
  intros HI Hb Hc Hl Ha Hbin Hr.
  pose proof map_zq_inj as Hmap.
  assert (Hset : forall i z, i < isize n -> exists d' b, a_set qeqb d i (zq z) = Some (d', b) /\
    InvQ (map zq c) d' /\ abuf d' = map zq (lset i z l) /\ (b = true <-> lset i z l <> l)).
  { intros i z Hi.
    assert (Hd : a_step qeqb (zq 0) d (OSet i (zq z)) <> None).
    { apply (a_step_defined qeqb_spec (zq 0) _ HI). cbn.
      rewrite Hb, map_length. destruct Hl as [-> _].
      rewrite (proj2 (Nat.ltb_lt _ _)) by auto. discriminate. }
    destruct (a_step qeqb (zq 0) d (OSet i (zq z))) as [[d' b]|] eqn:E; [|congruence].
    destruct (a_step_spec qeqb_spec (zq 0) _ HI E) as [c' [Hs HI']]. cbn in Hs, E.
    destruct (_ <? _); [|discriminate]. injection Hs as <- Hs.
    assert (Hbuf : abuf d' = map zq (lset i z l)) by (rewrite map_lset, <- Hb; auto).
    exists d', b. repeat split; auto; try apply HI'.
    - intros ->. apply (a_set_flag _ qeqb_spec) in E. intros Heq.
      apply E; auto. rewrite Hbuf, Heq. auto.
    - intros Hne. apply (a_set_flag _ qeqb_spec) in E. apply E.
      rewrite Hbuf, Hb. intros Heq. apply Hne. auto. }
  destruct o as [i v|i j|i|i|i| |]; cbn in Ha, Hr.
  - cbn [zspec_op n_step]. unfold set_value. rewrite is_valid_zq.
    destruct (_ && _)%bool eqn:E; cbn [negb].
    + destruct (Hset i v Hr) as (d' & b & E1 & H1 & H2 & H3).
      rewrite (proj2 (Nat.ltb_lt _ _)) by (destruct Hl; lia).
      do 2 eexists. split; [reflexivity|]. right. exists d', b. rewrite E1. auto.
    + do 2 eexists. split; [reflexivity|]. left. auto.
  - cbn [zspec_op n_step]. unfold exchange. destruct Hr as [Hi Hj]. destruct Hl as [Hl1 Hl2].
    destruct (nth_error l i) as [x|] eqn:Ei;
      [|apply nth_error_None in Ei; lia].
    destruct (nth_error l j) as [y|] eqn:Ej;
      [|apply nth_error_None in Ej; lia].
    assert (Hd : a_step qeqb (zq 0) d (OExchange i j) <> None).
    { apply (a_step_defined qeqb_spec (zq 0) _ HI). cbn.
      rewrite Hb, !nth_error_map, Ei, Ej. discriminate. }
    destruct (a_step qeqb (zq 0) d (OExchange i j)) as [[d' b]|] eqn:E; [|congruence].
    destruct (a_step_spec qeqb_spec (zq 0) _ HI E) as [c' [Hs HI']]. cbn in Hs, E.
    rewrite Hb, !nth_error_map, Ei, Ej in Hs. cbn in Hs. injection Hs as <- Hs.
    assert (Hbuf : abuf d' = map zq (lset i y (lset j x l))) by (rewrite !map_lset; auto).
    do 2 eexists. split; [reflexivity|]. right. exists d', b. rewrite E. repeat split; auto; try apply HI'.
    + intros ->. apply (a_exchange_flag _ qeqb_spec) in E. intros Heq.
      apply E; auto. rewrite Hbuf, Heq. auto.
    + intros Hne. apply (a_exchange_flag _ qeqb_spec) in E. apply E.
      rewrite Hbuf, Hb. intros Heq. apply Hne. auto.
  - cbn [zspec_op n_step]. unfold flip, a_get. rewrite Hb, nth_error_map.
    destruct (nth_error l i) as [x|] eqn:Ei;
      [|apply nth_error_None in Ei; destruct Hl; lia]. cbn [option_map].
    destruct (Hset i (1 - x)%Z Hr) as (d' & b & E1 & H1 & H2 & H3).
    do 2 eexists. split; [reflexivity|]. right. exists d', b.
    replace (if q2b (zq x) then zq 0 else zq 1) with (zq (1 - x)).
    + rewrite E1. auto.
    + destruct (Hbin Ha) as [El Eh]. destruct Hl as [_ Hl]. rewrite Forall_forall in Hl.
      apply nth_error_In in Ei. apply Hl in Ei. rewrite El, Eh in Ei.
      assert (Hx : (x = 0 \/ x = 1)%Z) by lia. destruct Hx as [-> | ->]; reflexivity.
  - cbn [zspec_op n_step]. unfold bset.
    destruct (Hset i 1%Z Hr) as (d' & b & E1 & H1 & H2 & H3).
    rewrite (proj2 (Nat.ltb_lt _ _)) by (destruct Hl; lia).
    do 2 eexists. split; [reflexivity|]. right. exists d', b. rewrite E1. auto.
  - cbn [zspec_op n_step]. unfold bunset.
    destruct (Hset i 0%Z Hr) as (d' & b & E1 & H1 & H2 & H3).
    rewrite (proj2 (Nat.ltb_lt _ _)) by (destruct Hl; lia).
    do 2 eexists. split; [reflexivity|]. right. exists d', b. rewrite E1. auto.
  - cbn [zspec_op n_step]. do 2 eexists. split; [reflexivity|]. right.
    exists (a_commit d), false. repeat split; cbn; auto; rewrite Hb; auto.
  - cbn [zspec_op n_step]. do 2 eexists. split; [reflexivity|]. right.
    destruct HI as [HI1 HI2]. rewrite (revert_replay _ qeqb_spec (zq 0) (map zq c) d HI1 HI2).
    exists (a_init (map zq c)), false. repeat split; auto.
Qed.

Lemma n_run_spec n : (ibinary n = true -> ilo n = 0%Z /\ ihi n = 1%Z) ->
  forall os c l d,
  InvQ (map zq c) d -> abuf d = map zq l -> zdom n c -> zdom n l ->
  Forall (fun o => nop_allowed n o = true /\ nop_in_range (isize n) o) os ->
  exists c' l' d', zspec_run (ilo n) (ihi n) (c, l) os = Some (c', l') /\
    n_run n d os = Some d' /\ InvQ (map zq c') d' /\ abuf d' = map zq l' /\ zdom n c' /\ zdom n l'.
Proof.
  intros Hbin. induction os as [|o os IH]; intros c l d HI Hb Hc Hl Hos.
  - exists c, l, d. cbn. auto 10.
  - inversion_clear Hos as [|? ? [Ha Hr] Hos'].
    destruct (n_step_spec n c l d o HI Hb Hc Hl Ha Hbin Hr) as (c1 & l1 & Hs & Hcase).
    destruct (zspec_dom _ _ _ _ _ _ Hc Hl Ha Hbin Hs) as [Hc1 Hl1].
    unfold zspec_run in *. cbn [ofold n_run]. rewrite Hs.
    destruct Hcase as [(Et & -> & ->)|(d1 & b & Eo & HI1 & Hb1 & _)].
    + rewrite Et. apply IH; auto.
    + rewrite Eo. apply IH; auto.
Qed.
