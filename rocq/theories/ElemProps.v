(** C26 unary operations, C30 conditionals, C32 reshape and size. *)
From Verif Require Import Base SliceModel ShapeModel ShapeSpec ShapeProofs StateDataModel StateDataSpec StateDataProofs
  Replay NodeSpec NodeLib BinaryModel BinarySpec NodeShape BinaryProofs ElemModel ElemSpec ElemProofs.

(** * C26 *)
Theorem C26_unary_node : forall (V : Type) (veqb : V -> V -> bool) (vpad : V),
  (forall x y, reflect (x = y) (veqb x y)) -> forall (f : V -> V) s,
  node_ok veqb (array_node vpad s [s] (un_init f) (un_prop veqb f)) (un_fun f).
Proof. intros V veqb vpad spec f s. exact (unary_ok vpad spec f s). Qed.
Print Assumptions C26_unary_node.

Example C26_example : exists d,
  un_prop Z.eqb Z.abs (a_init [5; 7; 1]%Z)
    [Pin [-5; 7; 2; 3]%Z [change 0 5 (-5); removal 2 (-1); placement 2 2; placement 3 3]%Z 1] = Ok d /\
  abuf d = [5; 7; 2; 3]%Z /\ aupd d = [removal 2 1; placement 2 2; placement 3 3]%Z /\
  pin_ok Z.eqb [-1]%Z [5; 7; -1]%Z (Pin [-5; 7; 2; 3]%Z [change 0 5 (-5); removal 2 (-1); placement 2 2; placement 3 3]%Z 1).
Proof.
  eexists. split; [vm_compute; reflexivity|]. split; [reflexivity|]. split; [reflexivity|].
  constructor; [exists 3%Z; split; [lia|reflexivity]|exists 4%Z; split; [lia|reflexivity]|reflexivity|reflexivity|discriminate].
Qed.

(** * C30 *)
Theorem C30_where_node : forall (V : Type) (veqb : V -> V -> bool) (vpad : V),
  (forall x y, reflect (x = y) (veqb x y)) -> forall (truth : V -> bool) cs xs ys s,
  wf_shape cs -> wf_shape xs -> where_new cs xs ys = Ok s ->
  ys = xs /\ s = xs /\
  node_ok veqb (array_node_gen vpad (where_out xs) s [cs; xs; ys] (where_init truth cs) (where_prop veqb truth cs))
    (where_fun truth cs).
Proof.
  intros V veqb vpad spec truth cs xs ys s Wc Wx H.
  destruct (where_ok vpad spec truth cs xs ys s Wc Wx H) as [-> [-> K]]. split; [reflexivity|]. split; [reflexivity|]. exact K.
Qed.
Print Assumptions C30_where_node.

(** Combinations that the constructor must refuse are refused. *)
Theorem C30_where_refuses : forall cs xs ys, wf_shape cs ->
  (where_new cs xs ys <> Throw <-> xs = ys /\ (single cs = true \/ (cs = xs /\ dynamic cs = false))).
Proof.
  intros cs xs ys W. unfold where_new. rewrite (size_is_one cs W), (size_neg cs W).
  destruct (zlist_eqb_spec xs ys) as [->|N]; [|split; [congruence|tauto]].
  destruct (single cs); [split; [auto|discriminate]|]. destruct (zlist_eqb_spec cs ys) as [->|N].
  - destruct (dynamic ys); split; try congruence; try discriminate; auto. intros [_ [?|[_ ?]]]; discriminate.
  - split; [congruence|]. intros [_ [?|[? _]]]; congruence.
Qed.
Print Assumptions C30_where_refuses.

Definition ztruth (z : Z) : bool := negb (z =? 0)%Z.
Example C30_example :
  where_new [] [-1]%Z [-1]%Z = Ok [-1]%Z /\ where_new [2]%Z [2]%Z [2]%Z = Ok [2]%Z /\
  (exists d, where_prop Z.eqb ztruth [] (a_init [1; 2]%Z)
     [Pin [0]%Z [change 0 5 0]%Z 0; still [1; 2]%Z; Pin [7; 2; 9]%Z [placement 2 9]%Z 1] = Ok d /\
     abuf d = [7; 2; 9]%Z /\ aupd d = [change 0 1 7; placement 2 9]%Z) /\
  (exists d, where_prop Z.eqb ztruth [2]%Z (a_init [1; 4]%Z)
     [Pin [1; 1]%Z [change 1 0 1]%Z 0; Pin [6; 2]%Z [change 0 1 6]%Z 0; still [3; 4]%Z] = Ok d /\
     abuf d = [6; 2]%Z /\ aupd d = [change 0 1 6; change 1 4 2]%Z).
Proof.
  split; [reflexivity|]. split; [reflexivity|]. split.
  - eexists. split; [vm_compute; reflexivity|]. split; reflexivity.
  - eexists. split; [vm_compute; reflexivity|]. split; reflexivity.
Qed.

(** * C32 *)
Theorem C32_reshape_node : forall (V : Type) (veqb : V -> V -> bool) c ps shape s, wf_shape ps -> wf_shape shape -> reshape_new c ps shape = Ok s ->
  s = shape /\ dynamic shape = false /\ prod shape = prod ps /\ node_ok veqb (reshape_node ps shape) reshape_fun.
Proof. intros V veqb. exact reshape_ok. Qed.
Print Assumptions C32_reshape_node.

(** Exactly the fixed-size contiguous operands with the same number of elements are accepted. *)
Theorem C32_reshape_accepts : forall c ps shape, wf_shape ps -> wf_shape shape ->
  (reshape_new c ps shape = Ok shape <-> c = true /\ dynamic ps = false /\ dynamic shape = false /\ prod shape = prod ps).
Proof.
  intros c ps shape Wp Ws. unfold reshape_new. rewrite (size_neg ps Wp), (size_neg shape Ws).
  destruct c; cbn [negb]; [|split; [discriminate|intros [? _]; discriminate]].
  destruct (dynamic ps) eqn:D1; [split; [discriminate|intros (_ & ? & _); discriminate]|].
  destruct (dynamic shape) eqn:D2; [split; [discriminate|intros (_ & _ & ? & _); discriminate]|].
  rewrite (static_size ps Wp D1), (static_size shape Ws D2).
  destruct (Z.eqb_spec (prod shape) (prod ps)); cbn [negb]; split; auto; try discriminate. tauto.
Qed.
Print Assumptions C32_reshape_accepts.

(** The size node, for fixed and state-dependent operands. *)
Theorem C32_size_node : forall (V : Type) (veqb : V -> V -> bool), (forall x y, reflect (x = y) (veqb x y)) ->
  forall (ofsize : nat -> V) ps,
  node_ok veqb (scalar_node (veqb := veqb) [ps] (size_init ofsize) (size_prop ofsize)) (size_fun ofsize).
Proof. intros V veqb spec. exact (size_ok spec). Qed.
Print Assumptions C32_size_node.

Example C32_example :
  reshape_new true [2; 6]%Z [3; 4]%Z = Ok [3; 4]%Z /\ wf_shape [3; 4]%Z /\ reshape_new true [2; 6]%Z [3; 5]%Z = Throw /\
  size_prop Z.of_nat (s_init 2%Z) [Pin [7; 8; 9]%Z [placement 2 9]%Z 1] = Ok {| sold := 2; sval := 3 |}%Z.
Proof. split; [reflexivity|]. split; [repeat split; repeat constructor; cbn; lia|]. split; reflexivity. Qed.
