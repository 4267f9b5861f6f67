(** C73 What NumPy reads of a state. *)
From Verif Require Import Base SliceModel SliceSpec ShapeModel ShapeSpec StateDataModel NodeSpec BinaryModel BasicModel BasicSpec ViewModel ViewSpec BufModel BufSpec BufProofs.
Local Open Scope Z_scope.

(** A node with memory of its own shows all of it. *)
Theorem C73_own : forall V shape (v : list V), wf_shape shape -> fits shape v -> (dynamic shape = false -> Forall (fun d => 0 <= d) shape) ->
  read_buffer v (own_buffer shape (Z.of_nat (length v))) = Some v /\ bu_len (own_buffer shape (Z.of_nat (length v))) = 8 * Z.of_nat (length v).
Proof. intros V shape v H1 H2 H3. split; [now apply own_read|reflexivity]. Qed.
Print Assumptions C73_own.

(** A view of an array of fixed size shows the selected elements, whatever the steps. *)
Theorem C73_fixed : forall V ps strides idx p c (st : @bst V) (a : list V), wf_shape ps -> dynamic ps = false -> packed ps strides -> Forall (fun d => 0 <= d <= SMAX) ps ->
  basic_new (shape_to_size ps) ps strides true idx = Ok (p, c) -> fits ps a ->
  exists w, view_fun ps idx [a] = Some w /\ read_buffer a (view_buffer p st) = Some w /\ bu_len (view_buffer p st) = 8 * Z.of_nat (length w).
Proof. exact @fixed_buffer. Qed.
Print Assumptions C73_fixed.

(** A view of whole rows of an array that changes size shows the selected rows, at every point of its life. *)
Theorem C73_rows : forall V veqb dbg sh s0 str s r p (st : @bst V) (a : list V), Forall (fun d => 0 < d <= SMAX) sh -> packed (-1 :: sh) (s0 :: str) ->
  basic_new (-1) (-1 :: sh) (s0 :: str) true (ISlice s :: r) = Ok (p, true) -> Forall (fun d => 0 < d) (tl (p_shape p)) ->
  reached veqb dbg (-1 :: sh) p true st a -> fits (-1 :: sh) a -> Z.of_nat (length a) < 2147483648 ->
  exists w, view_fun (-1 :: sh) (ISlice s :: r) [a] = Some w /\ read_buffer a (view_buffer p st) = Some w /\ bu_len (view_buffer p st) = 8 * Z.of_nat (length w).
Proof.
  intros V veqb dbg sh s0 str s r p st a H1 H2 H3 H4 Hr. apply (rows_buffer sh str s0 s r p H1 H2 H3 H4 st a).
  induction Hr as [a st E|st a q st' _ _ E|st a st' _ IH E|st a old st' _ _ E].
  - exact (init_current sh str s0 s r p H1 H2 H3 H4 a st E).
  - exact (prop_current sh str s0 s r p H1 H2 H3 H4 veqb dbg st q st' E).
  - exact (commit_current sh p st a st' IH E).
  - exact (revert_current sh str s0 s r p H1 H2 H3 H4 dbg st old st' E).
Qed.
Print Assumptions C73_rows.

(** With a step it does not: [x[1::2]] of four elements makes NumPy read past the end of the memory. *)
Theorem C73_step_refuted : exists ps idx p c (st : @bst Z) a w, packed ps (shape_to_strides ps) /\ basic_new (-1) ps (shape_to_strides ps) true idx = Ok (p, c) /\
  fits ps a /\ view_init ps p c a = Ok st /\ view_fun ps idx [a] = Some w /\ bu_len (view_buffer p st) = 8 * Z.of_nat (length w) /\ read_buffer a (view_buffer p st) = None.
Proof.
  exists [-1], [ISlice (Slice 1 SMAX 2)]. do 3 eexists. exists [0; 1; 2; 3], [1; 3].
  split; [cbn; intuition lia|]. split; [vm_compute; reflexivity|]. split; [exists 4; cbn; lia|]. split; [vm_compute; reflexivity|]. vm_compute. repeat split.
Qed.
Print Assumptions C73_step_refuted.

(** Every other column of a 2 by 3 array, read through strides of 24 and 16 bytes; the last rows of two, growing; an array of rows of its own. *)
Example C73_fixed_example : exists p, basic_new 6 [2; 3] [24; 8] true [ISlice (Slice 0 SMAX 1); ISlice (Slice 0 SMAX 2)] = Ok (p, false) /\
  view_buffer (V := Z) p (BSt [] 0 2 (Slice 0 0 1) []) = Buffer 0 32 [2; 2] [24; 16] /\
  read_buffer [0; 1; 2; 3; 4; 5] (view_buffer (V := Z) p (BSt [] 0 2 (Slice 0 0 1) [])) = Some [0; 2; 3; 5] /\
  wf_shape [2; 3] /\ dynamic [2; 3] = false /\ packed [2; 3] [24; 8] /\ fits [2; 3] [0; 1; 2; 3; 4; 5].
Proof. eexists. split; [vm_compute; reflexivity|]. split; [vm_compute; reflexivity|]. split; [vm_compute; reflexivity|]. split; [split; [repeat constructor; lia|split; [vm_compute; reflexivity|cbn; lia]]|]. split; [reflexivity|]. split; [cbn; intuition lia|reflexivity]. Qed.
Example C73_rows_example : exists p st st', basic_new (-1) [-1; 2] [16; 8] true [ISlice (Slice (-1) SMAX 1); ISlice (Slice 0 SMAX 1)] = Ok (p, true) /\
  reached Z.eqb false [-1; 2] p true st [0; 1; 2; 3] /\ read_buffer [0; 1; 2; 3] (view_buffer p st) = Some [2; 3] /\
  reached Z.eqb false [-1; 2] p true st' [0; 1; 2; 3; 4; 5] /\ view_buffer p st' = Buffer 32 16 [1; 2] [16; 8] /\
  read_buffer [0; 1; 2; 3; 4; 5] (view_buffer p st') = Some [4; 5].
Proof.
  do 2 eexists. exists (BSt [change 0%nat 2 4; change 1%nat 3 5] 2 1 (Slice 2 3 1) [2; 3]). split; [vm_compute; reflexivity|]. split; [apply r_init; vm_compute; reflexivity|]. split; [vm_compute; reflexivity|].
  split.
  - eapply (r_prop Z.eqb false) with (a := [0; 1; 2; 3]) (q := {| pview := [0; 1; 2; 3; 4; 5]; pdiff := [placement 4 4; placement 5 5]; psdiff := 2 |}).
    + apply r_init. vm_compute. reflexivity.
    + vm_compute. reflexivity.
  - split; vm_compute; reflexivity.
Qed.
Example C73_own_example : own_buffer [-1; 2] 6 = Buffer 0 48 [3; 2] [16; 8] /\ read_buffer [0; 1; 2; 3; 4; 5] (own_buffer [-1; 2] 6) = Some [0; 1; 2; 3; 4; 5] /\
  wf_shape [-1; 2] /\ fits [-1; 2] [0; 1; 2; 3; 4; 5].
Proof. split; [vm_compute; reflexivity|]. split; [vm_compute; reflexivity|]. split; [split; [repeat constructor; lia|split; [vm_compute; reflexivity|cbn; lia]]|exists 3; cbn; lia]. Qed.
