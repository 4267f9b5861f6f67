(** C28 reductions. *)
From Verif Require Import Base SliceModel ShapeModel ShapeSpec StateDataModel StateDataSpec StateDataProofs Replay
  NodeSpec NodeLib BinaryModel NodeShape BinaryProofs Num NaryModel NarySpec NaryProofs ReduceModel ReduceSpec ReduceProofs.

Theorem C28_reduce_node : forall o given s init, red_new o given s = Ok init ->
  node_ok qeqb (red_node o init s) (red_fun o init).
Proof. intros o given s init H. apply red_ok. exact (red_new_has_init _ _ _ _ H). Qed.
Print Assumptions C28_reduce_node.

(** The function computed is the reduction of the elements together with the initial value. *)
Theorem C28_reduce_value : forall o init l v, red_fun o init [l] = Some v ->
  exists x, v = [x] /\ reduces_to o (olist init ++ l) x.
Proof.
  intros o init l v H. destruct (red_fun_single _ _ _ _ H) as [_ [x [_ ->]]]. exists x. split; [reflexivity|].
  destruct o; cbn [reduces_to].
  - unfold red_fun in H. destruct (olist init ++ l) as [|y t]; [discriminate|].
    assert (E : x = b2q (forallb q2b (y :: t))) by congruence. rewrite E. destruct (forallb q2b (y :: t)) eqn:F.
    + left. split; [reflexivity|]. intros z Hz. rewrite forallb_forall in F. specialize (F z Hz). unfold q2b in F.
      destruct (qeqb_spec z 0); [discriminate|auto].
    + right. split; [reflexivity|]. apply not_true_iff_false in F.
      assert (X : existsb (fun z => qeqb z 0) (y :: t) = true).
      { destruct (existsb (fun z => qeqb z 0) (y :: t)) eqn:Q; [reflexivity|]. exfalso. apply F. apply forallb_forall.
        intros z Hz. unfold q2b. destruct (qeqb z 0) eqn:Qz; [|reflexivity].
        assert (existsb (fun z => qeqb z 0) (y :: t) = true) by (apply existsb_exists; eauto). congruence. }
      apply existsb_exists in X. destruct X as [z [Hz Qz]]. exists z. split; [exact Hz|]. now destruct (qeqb_spec z 0).
  - unfold red_fun in H. destruct (olist init ++ l) as [|y t]; [discriminate|].
    assert (E : x = b2q (existsb q2b (y :: t))) by congruence. rewrite E. destruct (existsb q2b (y :: t)) eqn:F.
    + left. split; [reflexivity|]. apply existsb_exists in F. destruct F as [z [Hz Qz]]. exists z. split; [exact Hz|].
      unfold q2b in Qz. destruct (qeqb_spec z 0); [discriminate|auto].
    + right. split; [reflexivity|]. intros z Hz. destruct (qeqb_spec z 0) as [|N]; [auto|]. exfalso.
      assert (existsb q2b (y :: t) = true); [|congruence]. apply existsb_exists. exists z. split; [exact Hz|].
      unfold q2b. now destruct (qeqb_spec z 0).
  - now apply red_fun_max.
  - now apply red_fun_min.
  - unfold red_fun in H. destruct (olist init ++ l); [discriminate|]. congruence.
  - unfold red_fun in H. destruct (olist init ++ l); [discriminate|]. congruence.
Qed.
Print Assumptions C28_reduce_value.

(** The initial value is the given one, else the identity of the operation; an operation without
    identity and without initial value is accepted exactly over fixed-size nonempty arrays. *)
Theorem C28_reduce_accepts : forall o given s, wf_shape s ->
  match given, identity_of o with
  | Some i, _ => red_new o given s = Ok (Some i)
  | None, Some i => red_new o given s = Ok (Some i)
  | None, None =>
      (red_new o given s = Ok None /\ dynamic s = false /\ (1 <= prod s)%Z) \/
      (red_new o given s = Throw /\ (dynamic s = true \/ (prod s < 1)%Z))
  end.
Proof.
  intros o given s W. destruct given as [i|]; [reflexivity|]. unfold red_new.
  destruct o; cbn [identity_of]; try reflexivity; rewrite (size_neg s W); destruct (dynamic s) eqn:D; auto;
    rewrite (static_size s W D); destruct (Z.ltb_spec (prod s) 1); auto.
Qed.
Print Assumptions C28_reduce_accepts.

(** An accepted reduction has a value for every operand of the declared shape. *)
Theorem C28_reduce_total : forall o given s init l, wf_shape s -> red_new o given s = Ok init -> fits s l ->
  red_fun o init [l] <> None.
Proof.
  intros o given s init l W H Hf. unfold red_fun. destruct init as [i|]; [discriminate|]. cbn [olist app].
  pose proof (C28_reduce_accepts o given s W) as A. destruct given; [congruence|]. destruct (identity_of o); [congruence|].
  destruct A as [[_ [D P]]|[A _]]; [|congruence]. destruct l as [|x l]; [|discriminate].
  unfold fits, fits_len in Hf. rewrite D in Hf. cbn in Hf. lia.
Qed.
Print Assumptions C28_reduce_total.

(** The current maximum is removed; a zero enters and leaves a product with initial value 2. *)
Example C28_example :
  red_new RMax (Some (zq 1)) [-1]%Z = Ok (Some (zq 1)) /\ red_new RMax None [-1]%Z = Throw /\
  (exists d, red_prop RMax (Some (zq 1)) (r_new (zq 9) 1 0)
     [Pin [zq 3; zq 4] [removal 2 (zq 9); change 1 (zq 2) (zq 4)] (-1)] = Ok d /\
     r_out d = Pin [zq 4] [change 0 (zq 9) (zq 4)] 0) /\
  (exists d, red_prop RMul (Some (zq 2)) (r_new (zq 30) (zq 30) 0)
     [Pin [zq 3; zq 0] [change 1 (zq 5) (zq 0)] 0] = Ok d /\
     r_val d = zq 0 /\ x_nz d = zq 6 /\ x_cnt d = 1%Z /\
     exists d', red_prop RMul (Some (zq 2)) (r_commit d) [Pin [zq 3; zq 7] [change 1 (zq 0) (zq 7)] 0] = Ok d' /\
       r_val d' = zq 42 /\ r_val (r_revert d') = zq 0).
Proof.
  split; [reflexivity|]. split; [reflexivity|]. split.
  - eexists. split; [vm_compute; reflexivity|]. reflexivity.
  - eexists. split; [vm_compute; reflexivity|]. split; [apply Qc_is_canon; reflexivity|].
    split; [apply Qc_is_canon; reflexivity|]. split; [reflexivity|].
    eexists. split; [vm_compute; reflexivity|]. split; apply Qc_is_canon; reflexivity.
Qed.
