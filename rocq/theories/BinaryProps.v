(** C25: binary elementwise operations. *)
From Verif Require Import Base SliceModel ShapeModel ShapeSpec ShapeProofs StateDataModel StateDataSpec StateDataProofs
  Replay NodeSpec NodeLib BinaryModel BinarySpec NodeShape BinaryProofs.

(** For every operation, every pair of shapes the constructor accepts, and every history of
    well-behaved changes of the operands (outside the [clash] case), the node's value is the
    elementwise operation of the operands' values, its update list describes the change, and commit
    and revert leave it at the new and the old value. *)
Theorem C25_binary_node : forall (V : Type) (veqb : V -> V -> bool) (vpad : V),
  (forall x y, reflect (x = y) (veqb x y)) ->
  forall (op : V -> V -> V) ls rs s, wf_shape ls -> wf_shape rs -> wf_shape s -> bin_new ls rs = Ok s ->
  node_ok veqb (array_node vpad s [ls; rs] (bin_init op ls rs) (bin_prop veqb op ls rs)) (bin_fun op ls rs).
Proof. intros V veqb vpad spec op ls rs s Wl Wr Ws H. exact (binary_ok vpad spec op ls rs s Wl Wr Ws H). Qed.
Print Assumptions C25_binary_node.

Example C25_binary_example :
  bin_new [-1; 2]%Z []%Z = Ok [-1; 2]%Z /\ wf_shape [-1; 2]%Z /\ wf_shape [] /\
  bin_fun Z.sub [-1; 2]%Z [] [[5; 7; 1; 2]; [1]]%Z = Some [4; 6; 0; 1]%Z /\
  (exists d, bin_prop Z.eqb Z.sub [-1; 2]%Z [] (a_init [4; 6; 0; 1]%Z)
     [Pin [5; 8]%Z [removal 3 2; removal 2 1; change 1 7 8]%Z (-2); still [1]%Z] = Ok d /\ abuf d = [4; 7]%Z /\
     aupd d = [removal 3 1; removal 2 0; change 1 6 7]%Z).
Proof.
  split; [reflexivity|]. split; [repeat split; repeat constructor; cbn; lia|].
  split; [repeat split; repeat constructor; cbn; lia|]. split; [reflexivity|].
  eexists. split; [vm_compute; reflexivity|]. split; vm_compute; reflexivity.
Qed.

(** The value is NumPy's broadcasting: at every multi-index of the result, the operation of the
    operands' elements at the aligned multi-indices. *)
Theorem C25_numpy_broadcasting : forall (V : Type) (op : V -> V -> V) ls rs s a b v,
  wf_shape ls -> wf_shape rs -> wf_shape s -> bin_new ls rs = Ok s ->
  fits ls a -> fits rs b -> bin_value op ls rs a b = Some v ->
  forall idx, in_range (state_shape s (length v)) idx -> exists x y,
    nth_error a (Z.to_nat (rank (state_shape ls (length a)) (bc_index (state_shape ls (length a)) idx))) = Some x /\
    nth_error b (Z.to_nat (rank (state_shape rs (length b)) (bc_index (state_shape rs (length b)) idx))) = Some y /\
    nth_error v (Z.to_nat (rank (state_shape s (length v)) idx)) = Some (op x y).
Proof. intros V. exact bin_broadcast. Qed.
Print Assumptions C25_numpy_broadcasting.

(** The size reported in a state is the number of values. *)
Theorem C25_state_size : forall (V : Type) (op : V -> V -> V) ls rs s a b v,
  wf_shape ls -> wf_shape rs -> wf_shape s -> bin_new ls rs = Ok s ->
  fits ls a -> fits rs b -> bin_value op ls rs a b = Some v ->
  bin_state_size s (length a) (length b) = Ok (Z.of_nat (length v)).
Proof. intros V. exact bin_state_size_ok. Qed.
Print Assumptions C25_state_size.

(** The shape reported in a state fits the values, unless the left operand has a state-dependent size
    which is currently 1. *)
Theorem C25_state_shape : forall (V : Type) (op : V -> V -> V) ls rs s a b v,
  wf_shape ls -> wf_shape rs -> wf_shape s -> bin_new ls rs = Ok s ->
  fits ls a -> fits rs b -> bin_value op ls rs a b = Some v ->
  (dynamic ls = true -> length a <> 1) ->
  bin_state_shape ls rs s (length a) (length b) = Ok (state_shape s (length v)).
Proof. intros V. exact bin_state_shape_ok. Qed.
Print Assumptions C25_state_shape.

Example C25_value_example :
  bin_new [2; 3]%Z [1; 1; 1]%Z = Ok [1; 2; 3]%Z /\ fits [2; 3]%Z [1; 2; 3; 4; 5; 6]%Z /\ fits [1; 1; 1]%Z [10]%Z /\
  bin_value Z.add [2; 3]%Z [1; 1; 1]%Z [1; 2; 3; 4; 5; 6]%Z [10]%Z = Some [11; 12; 13; 14; 15; 16]%Z /\
  bin_state_size [1; 2; 3]%Z 6 1 = Ok 6%Z /\ bin_state_shape [-1]%Z [] [-1]%Z 3 1 = Ok [3]%Z.
Proof. vm_compute. repeat split; reflexivity. Qed.

(** With a state-dependent left operand of current size 1, the reported shape is the scalar's. *)
Theorem C25_state_shape_refuted : exists ls rs s, wf_shape ls /\ wf_shape rs /\ wf_shape s /\ bin_new ls rs = Ok s /\
  fits ls [7%Z] /\ fits rs [1%Z] /\ bin_value Z.add ls rs [7]%Z [1]%Z = Some [8]%Z /\
  bin_state_shape ls rs s 1 1 = Ok [] /\ state_shape s 1 = [1]%Z.
Proof.
  exists [-1]%Z, [], [-1]%Z.
  split; [repeat split; repeat constructor; cbn; lia|]. split; [repeat split; repeat constructor; cbn; lia|].
  split; [repeat split; repeat constructor; cbn; lia|]. split; [reflexivity|].
  split; [exists 1%Z; split; [lia|reflexivity]|]. split; [reflexivity|]. vm_compute. auto.
Qed.
Print Assumptions C25_state_shape_refuted.

(** In the [clash] case propagation accesses memory out of range: a left operand of state-dependent
    size shrinks to size 1 (or grows to it) against a fixed operand of shape (1,). *)
Theorem C25_clash_refuted : exists ls rs s, wf_shape ls /\ wf_shape rs /\ wf_shape s /\ bin_new ls rs = Ok s /\
  (exists l, pin_ok Z.eqb ls [5; 6]%Z l /\ pview l = [5]%Z /\ pin_ok Z.eqb rs [1]%Z (still [1]%Z) /\
     bin_init Z.add ls rs [still [5; 6]; still [1]]%Z = Ok (a_init [6; 7]%Z) /\
     bin_prop Z.eqb Z.add ls rs (a_init [6; 7]%Z) [l; still [1]%Z] = UB) /\
  (exists l, pin_ok Z.eqb ls [] l /\ pview l = [5]%Z /\
     bin_init Z.add ls rs [still []; still [1]]%Z = Ok (a_init []) /\
     bin_prop Z.eqb Z.add ls rs (a_init []) [l; still [1]%Z] = UB).
Proof.
  exists [-1]%Z, [1]%Z, [-1]%Z.
  split; [repeat split; repeat constructor; cbn; lia|]. split; [repeat split; repeat constructor; cbn; lia|].
  split; [repeat split; repeat constructor; cbn; lia|]. split; [reflexivity|]. split.
  - exists (Pin [5]%Z [removal 1 6%Z] (-1)).
    split; [constructor; [exists 2%Z; split; [lia|reflexivity]|exists 1%Z; split; [lia|reflexivity]|reflexivity|reflexivity|discriminate]|].
    split; [reflexivity|]. split; [constructor; try reflexivity; constructor|]. split; reflexivity.
  - exists (Pin [5]%Z [placement 0 5%Z] 1).
    split; [constructor; [exists 0%Z; split; [lia|reflexivity]|exists 1%Z; split; [lia|reflexivity]|reflexivity|reflexivity|discriminate]|].
    split; [reflexivity|]. split; reflexivity.
Qed.
Print Assumptions C25_clash_refuted.

(** The constructor accepts a state-dependent operand together with a size-1 operand of more
    dimensions, and then puts the state-dependent axis in the middle of its shape. *)
Theorem C25_shape_malformed_refuted : exists ls rs s, wf_shape ls /\ wf_shape rs /\ bin_new ls rs = Ok s /\
  s = [1; -1]%Z /\ ~ wf_shape s.
Proof.
  exists [-1]%Z, [1; 1]%Z, [1; -1]%Z.
  split; [repeat split; repeat constructor; cbn; lia|]. split; [repeat split; repeat constructor; cbn; lia|].
  split; [reflexivity|]. split; [reflexivity|]. intros [H _]. cbn [tl] in H. inversion H. lia.
Qed.
Print Assumptions C25_shape_malformed_refuted.
