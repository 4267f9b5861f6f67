From Verif Require Import Base SliceModel SliceSpec ShapeModel ShapeSpec BasicModel BasicSpec BasicProofs.
Local Open Scope Z_scope.

(** C36, what a view of an array of known shape consists of.  Accepted are one index per axis, slices with
    positive steps and integers in range; everything else is refused.  The shape and the elements, in
    order, are those that NumPy's rules select. *)
Theorem C36_selects : forall size shape strides idx p, 0 <= size -> packed shape strides -> Forall (fun d => 0 <= d <= SMAX) shape ->
  parse size shape strides true idx = Ok p ->
  accepts shape idx /\ p_shape p = sel_shape shape idx /\ elements p = selected shape idx.
Proof.
  intros size shape strides idx p Hs Hp Hd E. unfold parse in E.
  destruct (Nat.ltb_spec (length idx) (length shape)); [discriminate E|]. destruct (Nat.ltb_spec (length shape) (length idx)); [discriminate E|]. cbn [negb] in E.
  destruct (Z.ltb_spec size 0); [lia|].
  destruct (accepts_dec shape idx) as [D|D].
  - destruct (parse_ok shape strides idx D Hp Hd) as (p' & E' & P1 & P2 & _). assert (p' = p) by congruence. subst p'. auto.
  - rewrite parse_no in E; auto; [discriminate E| |lia].
    clear - Hp. revert strides Hp. induction shape as [|d sh IH]; intros [|s st] Hp; try destruct Hp; auto. cbn [length]. f_equal. now apply IH.
Qed.
Print Assumptions C36_selects.
Theorem C36_accepts : forall size shape strides contiguous idx, 0 <= size -> packed shape strides -> Forall (fun d => 0 <= d <= SMAX) shape ->
  (contiguous = true /\ accepts shape idx -> exists p, parse size shape strides contiguous idx = Ok p) /\
  (~ (contiguous = true /\ accepts shape idx) -> parse size shape strides contiguous idx = Throw).
Proof.
  intros size shape strides c idx Hs Hp Hd.
  assert (L : length shape = length strides).
  { clear - Hp. revert strides Hp. induction shape as [|d sh IH]; intros [|s st] Hp; try destruct Hp; auto. cbn [length]. f_equal. now apply IH. }
  unfold parse. split.
  - intros [-> Ha]. pose proof (acc_len _ _ Ha) as La. destruct (Nat.ltb_spec (length idx) (length shape)); [lia|]. destruct (Nat.ltb_spec (length shape) (length idx)); [lia|].
    cbn [negb]. destruct (Z.ltb_spec size 0); [lia|]. destruct (parse_ok shape strides idx Ha Hp Hd) as (p & E & _). eauto.
  - intros H. destruct (Nat.ltb_spec (length idx) (length shape)); [reflexivity|]. destruct (Nat.ltb_spec (length shape) (length idx)); [reflexivity|].
    destruct c; cbn [negb]; [|reflexivity]. destruct (Z.ltb_spec size 0); [lia|]. apply parse_no; auto; lia.
Qed.
Print Assumptions C36_accepts.
(** A view that counts as contiguous can be viewed again: its strides are packed once more. *)
Theorem C36_view_of_view : forall size shape strides idx p, 0 <= size -> packed shape strides -> Forall (fun d => 1 <= d <= SMAX) shape ->
  parse size shape strides true idx = Ok p -> Forall (fun d => 1 <= d) (p_shape p) -> is_contiguous (p_shape p) (p_strides p) = Some true ->
  packed (p_shape p) (p_strides p).
Proof.
  intros size shape strides idx p Hs Hp Hd E Hn Hc.
  assert (Hd0 : Forall (fun d => 0 <= d <= SMAX) shape) by (eapply Forall_impl; [|exact Hd]; cbn; intros; lia).
  destruct (C36_selects _ _ _ _ _ Hs Hp Hd0 E) as [Ha _]. unfold parse in E.
  destruct (Nat.ltb (length idx) (length shape)); [discriminate E|]. destruct (Nat.ltb (length shape) (length idx)); [discriminate E|]. cbn [negb] in E.
  destruct (Z.ltb_spec size 0); [lia|]. eapply packed_view; eassumption.
Qed.
Print Assumptions C36_view_of_view.

(** C45: the indices inferred from a view are accepted again and give a view of the same shape onto the
    same elements.  The sizes are positive, every slice starts inside its axis and the view has fewer than
    2^31 elements. *)
Theorem C45_rebuilds : forall size shape strides idx p, 0 <= size -> packed shape strides -> Forall (fun d => 1 <= d <= SMAX) shape ->
  starts_inside shape idx -> prod (sel_shape shape idx) < 2147483648 ->
  parse size shape strides true idx = Ok p ->
  exists idx' p', infer_indices shape strides p = Ok idx' /\ parse size shape strides true idx' = Ok p' /\
    p_shape p' = p_shape p /\ elements p' = elements p.
Proof.
  intros size shape strides idx p Hs Hp Hd Hi Hb E.
  assert (Hd0 : Forall (fun d => 0 <= d <= SMAX) shape) by (eapply Forall_impl; [|exact Hd]; cbn; intros; lia).
  destruct (C36_selects _ _ _ _ _ Hs Hp Hd0 E) as (Ha & E1 & E2).
  assert (Ep : parse_loop false (combine shape strides) idx = Ok p).
  { unfold parse in E. destruct (Nat.ltb (length idx) (length shape)); [discriminate E|]. destruct (Nat.ltb (length shape) (length idx)); [discriminate E|]. cbn [negb] in E.
    destruct (Z.ltb_spec size 0); [lia|]. exact E. }
  destruct (infer_back shape strides idx p Ha Hp Hi Hd Ep) as (idx' & I1 & I2 & I3 & I4).
  destruct (proj1 (C36_accepts size shape strides true idx' Hs Hp Hd0) (conj eq_refl I2)) as (p' & E').
  destruct (C36_selects _ _ _ _ _ Hs Hp Hd0 E') as (_ & E1' & E2'). exists idx', p'. rewrite E1, E1', E2, E2', I3, I4. split; [|auto].
  unfold infer_indices. assert (N : shape_to_size (p_shape p) <? 0 = false); [|rewrite N; exact I1].
  apply Z.ltb_ge. rewrite E1. pose proof (selected_length shape idx Ha) as L. revert L Hb. generalize (selected shape idx) as w. intros w L Hb.
  unfold shape_to_size. assert (F : Forall (fun d => 0 <= d) (sel_shape shape idx)).
  { clear. revert idx. induction shape as [|d sh IH]; intros [|[z|s] r]; cbn [sel_shape]; try constructor; auto. lia. }
  destruct (sel_shape shape idx) as [|d sh]; [lia|]. inversion F; subst. destruct (Z.ltb_spec d 0); [lia|].
  assert (G : forall l a, fold_left Z.mul l a = a * prod l) by (induction l as [|x l IH]; intros a; cbn [fold_left prod]; [lia|]; rewrite IH; ring).
  rewrite G, Z.mul_1_l. unfold to_int. rewrite Z.mod_small by lia. destruct (Z.ltb_spec (prod (d :: sh)) 2147483648); lia.
Qed.
Print Assumptions C45_rebuilds.

(** For an array whose number of rows changes: the slice of rows is kept as written, and whatever the
    number of rows is, the same elements are selected. *)
Theorem C45_dynamic : forall size sh s0 st idx p, size < 0 -> packed sh st -> Forall (fun d => 1 <= d <= SMAX) sh ->
  starts_inside sh (tl idx) -> parse size (-1 :: sh) (s0 :: st) true idx = Ok p ->
  exists s r r' p', idx = ISlice s :: r /\ infer_indices (-1 :: sh) (s0 :: st) p = Ok (ISlice s :: r') /\
    parse size (-1 :: sh) (s0 :: st) true (ISlice s :: r') = Ok p' /\ p_shape p' = p_shape p /\ p_axis0 p' = p_axis0 p /\
    forall n, sel_shape (n :: sh) (ISlice s :: r') = sel_shape (n :: sh) idx /\ selected (n :: sh) (ISlice s :: r') = selected (n :: sh) idx.
Proof.
  intros size sh s0 st idx p Hs Hp Hd Hi E. unfold parse in E.
  destruct (Nat.ltb_spec (length idx) (length (-1 :: sh))); [discriminate E|]. destruct (Nat.ltb_spec (length (-1 :: sh)) (length idx)); [discriminate E|]. cbn [negb] in E.
  destruct (Z.ltb_spec size 0) as [_|]; [|lia]. destruct idx as [|[z|s] r]; cbn [combine parse_loop tl length] in *; [lia|discriminate E|].
  destruct (Z.eqb_spec (sstep s) 0); [discriminate E|]. destruct (Z.ltb_spec (sstep s) 0); [discriminate E|].
  destruct (parse_loop false (combine sh st) r) as [q| |] eqn:Eq; cbn [rbind] in E; try discriminate E.
  assert (Hd0 : Forall (fun d => 0 <= d <= SMAX) sh) by (eapply Forall_impl; [|exact Hd]; cbn; intros; lia).
  assert (Eq0 : parse 0 sh st true r = Ok q).
  { unfold parse. cbn [length] in *. destruct (Nat.ltb_spec (length r) (length sh)); [lia|]. destruct (Nat.ltb_spec (length sh) (length r)); [lia|]. exact Eq. }
  destruct (C36_selects 0 _ _ _ _ ltac:(lia) Hp Hd0 Eq0) as (Ha & E1 & E2).
  destruct (infer_back sh st r q Ha Hp Hi Hd Eq) as (r' & I1 & I2 & I3 & I4).
  destruct (parse_ok sh st r' I2 Hp Hd0) as (q' & Q1 & Q2 & _ & Q3 & _).
  destruct (parse_ok sh st r Ha Hp Hd0) as (q2 & Q4 & _ & _ & _). assert (q2 = q) by congruence. subst q2.
  exists s, r, r'. eexists. split; [reflexivity|]. injection E as <-. split; [|split; [|split; [|split]]].
  - unfold infer_indices. cbn [p_shape p_axis0 shape_to_size p_strides p_start tl]. change (-1 <? 0) with true. cbn iota. rewrite I1. reflexivity.
  - unfold parse. pose proof (acc_len _ _ I2) as L. cbn [length]. rewrite <- L. rewrite Nat.ltb_irrefl. cbn [negb]. destruct (Z.ltb_spec size 0); [|lia]. cbn [combine parse_loop].
    destruct (Z.eqb_spec (sstep s) 0); [lia|]. destruct (Z.ltb_spec (sstep s) 0); [lia|]. rewrite Q1. cbn [rbind]. reflexivity.
  - cbn [p_shape]. congruence.
  - reflexivity.
  - intros n1. cbn [sel_shape selected]. rewrite I3, I4. auto.
Qed.
Print Assumptions C45_dynamic.

(** A slice that starts past the end of its axis spoils the inference: the view [2, 4:] of a 3 by 4 array
    has indices inferred that are refused, *)
Theorem C45_past_end_refuted : exists shape idx p, accepts shape idx /\ parse (shape_to_size shape) shape (shape_to_strides shape) true idx = Ok p /\
  exists idx', infer_indices shape (shape_to_strides shape) p = Ok idx' /\ parse (shape_to_size shape) shape (shape_to_strides shape) true idx' = Throw.
Proof.
  exists [3; 4], [IInt 2; ISlice (Slice 4 9 1)]. eexists. split; [repeat constructor; cbn; lia|]. split; [vm_compute; reflexivity|]. eexists. split; [vm_compute; reflexivity|]. vm_compute. reflexivity.
Qed.
Print Assumptions C45_past_end_refuted.
(** the empty view [1:3, 4:] of shape (2, 0) is rebuilt with shape (1, 0), *)
Theorem C45_empty_refuted : exists shape idx p idx' p', accepts shape idx /\ parse (shape_to_size shape) shape (shape_to_strides shape) true idx = Ok p /\
  infer_indices shape (shape_to_strides shape) p = Ok idx' /\ parse (shape_to_size shape) shape (shape_to_strides shape) true idx' = Ok p' /\ p_shape p = [2; 0] /\ p_shape p' = [1; 0].
Proof.
  exists [3; 4], [ISlice (Slice 1 3 1); ISlice (Slice 4 9 1)]. do 3 eexists. split; [repeat constructor; cbn; lia|]. repeat (split; [vm_compute; reflexivity|]). vm_compute. reflexivity.
Qed.
Print Assumptions C45_empty_refuted.
(** a view of an empty array makes it divide by zero, *)
Theorem C45_zero_refuted : exists shape idx p, accepts shape idx /\ parse (shape_to_size shape) shape (shape_to_strides shape) true idx = Ok p /\ infer_indices shape (shape_to_strides shape) p = UB.
Proof.
  exists [4; 0], [ISlice (Slice 0 4 1); ISlice (Slice 0 0 1)]. eexists. split; [repeat constructor; cbn; lia|]. split; [vm_compute; reflexivity|]. vm_compute. reflexivity.
Qed.
Print Assumptions C45_zero_refuted.
(** and a view of 2^31 elements is taken for one of changing size, whose slice of rows is missing. *)
Theorem C45_large_refuted : exists shape idx p, accepts shape idx /\ starts_inside shape idx /\ parse (shape_to_size shape) shape (shape_to_strides shape) true idx = Ok p /\
  infer_indices shape (shape_to_strides shape) p = UB.
Proof.
  exists [4294967300], [ISlice (Slice 0 2147483648 1)]. eexists. split; [repeat constructor; cbn; lia|]. split; [repeat constructor|]. split; [vm_compute; reflexivity|]. vm_compute. reflexivity.
Qed.
Print Assumptions C45_large_refuted.

(** A three-dimensional array with one integer, a step and a negative bound: indices come back in normal form. *)
Example C45_example : exists p idx' p', parse 60 [3; 4; 5] [160; 40; 8] true [IInt (-1); ISlice (Slice (-3) 100 2); ISlice (Slice 1 5 3)] = Ok p /\
  packed [3; 4; 5] [160; 40; 8] /\ starts_inside [3; 4; 5] [IInt (-1); ISlice (Slice (-3) 100 2); ISlice (Slice 1 5 3)] /\
  p_shape p = [2; 2] /\ elements p = [46; 49; 56; 59] /\
  infer_indices [3; 4; 5] [160; 40; 8] p = Ok idx' /\ idx' = [IInt 2; ISlice (Slice 1 4 2); ISlice (Slice 1 5 3)] /\
  parse 60 [3; 4; 5] [160; 40; 8] true idx' = Ok p' /\ elements p' = elements p.
Proof.
  do 3 eexists. split; [vm_compute; reflexivity|]. split; [cbn; intuition lia|]. split; [repeat constructor|].
  split; [vm_compute; reflexivity|]. split; [vm_compute; reflexivity|]. split; [vm_compute; reflexivity|]. split; [reflexivity|]. split; [vm_compute; reflexivity|]. vm_compute. reflexivity.
Qed.
(** Rows that change in number, every other one, in a 2 by 3 array each. *)
Example C45_example_dynamic : exists p idx', parse (-1) [-1; 2; 3] [48; 24; 8] true [ISlice (Slice (-5) 9 2); IInt 1; ISlice (Slice 0 3 2)] = Ok p /\
  infer_indices [-1; 2; 3] [48; 24; 8] p = Ok idx' /\ idx' = [ISlice (Slice (-5) 9 2); IInt 1; ISlice (Slice 0 3 2)] /\
  selected [4; 2; 3] idx' = [3; 5; 15; 17].
Proof. do 2 eexists. split; [vm_compute; reflexivity|]. split; [vm_compute; reflexivity|]. split; [reflexivity|]. vm_compute. reflexivity. Qed.
