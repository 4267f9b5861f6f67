(** C36, the part that changes: the updates a view reports.  The theorems are about the whole life of the
    node ([vnode_ok]): initialised, it shows the selected elements; after every change of the array it shows
    the selected elements of the new contents and its updates replay from the old ones to them; commit and
    revert leave it ready for the next change. *)
From Verif Require Import Base SliceModel SliceSpec ShapeModel ShapeSpec StateDataModel StateDataSpec Replay NodeSpec NodeShape NodeLib BasicModel BasicSpec BasicProps ViewModel ViewSpec ViewProofs3 ViewProofs6.
Local Open Scope Z_scope.

Section Props.
Context {V : Type}.
Variable veqb : V -> V -> bool.
Variable spec : forall x y, reflect (x = y) (veqb x y).

(** Consecutive elements of an array of fixed size, whatever the number of axes; with assertions compiled
    in, the view must not be empty. *)
Theorem C36_fixed : forall dbg ps strides idx p, wf_shape ps -> dynamic ps = false -> packed ps strides -> Forall (fun d => 0 <= d <= SMAX) ps ->
  basic_new (shape_to_size ps) ps strides true idx = Ok (p, true) -> (dbg = true -> 0 < prod (p_shape p)) ->
  vnode_ok veqb (view_node veqb dbg ps p true) (view_fun ps idx).
Proof. intros dbg ps strides idx p H1 H2 H3 H4 H5 H6. exact (offset_ok veqb spec ps strides idx p true dbg H1 H2 H3 H4 H5 eq_refl H6). Qed.

(** Every k-th element, the first one being among the first k of the whole array. *)
Theorem C36_every : forall dbg ps strides idx p n k, wf_shape ps -> dynamic ps = false -> packed ps strides -> Forall (fun d => 0 <= d <= SMAX) ps ->
  basic_new (shape_to_size ps) ps strides true idx = Ok (p, false) -> p_shape p = [n] -> p_strides p = [8 * k] -> p_start p < k ->
  vnode_ok veqb (view_node veqb dbg ps p false) (view_fun ps idx).
Proof. intros dbg ps strides idx p n k H1 H2 H3 H4 H5 H6 H7 H8. exact (every_ok veqb spec ps strides idx p false dbg H1 H2 H3 H4 H5 n k H6 H7 eq_refl H8). Qed.

(** Whole rows of an array that changes size.  A slice starting at a negative position compares with what it
    showed before; with assertions compiled in, rows must have one element. *)
Theorem C36_cached : forall dbg sh s0 st s r p, Forall (fun d => 0 < d <= SMAX) sh -> packed (-1 :: sh) (s0 :: st) ->
  basic_new (-1) (-1 :: sh) (s0 :: st) true (ISlice s :: r) = Ok (p, true) -> Forall (fun d => 0 < d) (tl (p_shape p)) ->
  sstart s < 0 -> (dbg = true -> prod sh = 1) ->
  vnode_ok veqb (view_node veqb dbg (-1 :: sh) p true) (view_fun (-1 :: sh) (ISlice s :: r)).
Proof. intros dbg sh s0 st s r p H1 H2 H3 H4 H5 H6. exact (cached_ok veqb spec sh st s0 s r p dbg H1 H2 H3 H4 H5 H6). Qed.

(** Otherwise: rows of one element, or all rows. *)
Theorem C36_rows : forall dbg sh s0 st s r p, Forall (fun d => 0 < d <= SMAX) sh -> packed (-1 :: sh) (s0 :: st) ->
  basic_new (-1) (-1 :: sh) (s0 :: st) true (ISlice s :: r) = Ok (p, true) -> Forall (fun d => 0 < d) (tl (p_shape p)) ->
  0 <= sstart s <= SMAX -> prod sh = 1 \/ (sstart s = 0 /\ 2147483648 <= sstop s) ->
  vnode_ok veqb (view_node veqb dbg (-1 :: sh) p true) (view_fun (-1 :: sh) (ISlice s :: r)).
Proof. intros dbg sh s0 st s r p H1 H2 H3 H4 H5 H6. exact (ranged_ok veqb spec sh st s0 s r p dbg H1 H2 H3 H4 H5 H6). Qed.

(** Every k-th element with a later start: a change of the last one is never reported. *)
Theorem C36_every_lost : forall ps strides idx p n k, wf_shape ps -> dynamic ps = false -> packed ps strides -> Forall (fun d => 0 <= d <= SMAX) ps ->
  basic_new (shape_to_size ps) ps strides true idx = Ok (p, false) -> p_shape p = [n] -> p_strides p = [8 * k] -> 0 < k <= p_start p ->
  forall a x y, fits ps a -> let i := Z.to_nat (p_start p + (n - 1) * k) in nth_error a i = Some x ->
  let q := {| pview := lset i y a; pdiff := [change i x y]; psdiff := 0 |} in
  exists st st' out w, vn_init (view_node veqb false ps p false) [still a] = Ok st /\ vn_prop (view_node veqb false ps p false) st [q] = Ok st' /\
    vn_out (view_node veqb false ps p false) st' [q] = Some out /\
    view_fun ps idx [a] = Some w /\ pdiff out = [] /\ pview out = lset (Z.to_nat (n - 1)) y w /\ nth_error w (Z.to_nat (n - 1)) = Some x.
Proof.
  intros ps strides idx p n k H1 H2 H3 H4 H5 H6 H7 H8 a x y Fa i Ex q.
  destruct (every_lost veqb spec ps strides idx p false false H1 H2 H3 H4 H5 n k H6 H7 eq_refl eq_refl H8 a x y Fa Ex) as (st & st' & out & w & E1 & E2 & E).
  exists st, st', out, w. split; [exact E1|]. split; [exact E2|exact E].
Qed.

(** What the contract says of one change. *)
Lemma vnode_step ps (N : vnode V) F a q v v' : vnode_ok veqb N F -> vn_pre N = [ps] -> F [a] = Some v -> pin_ok veqb ps a q -> F [pview q] = Some v' ->
  exists st st' out, vn_init N [still a] = Ok st /\ vn_prop N st [q] = Ok st' /\ vn_out N st' [q] = Some out /\ pview out = v' /\ replay veqb v (pdiff out) = Some v'.
Proof.
  intros [(clean & C1 & C2 & C3)] Hp Ev Pl Ev'. destruct (C1 [a] v) as (_ & st & E1 & Cl); [rewrite Hp; constructor; [exact (po_old _ _ _ _ Pl)|constructor]|exact Ev|].
  destruct (C3 [a] st v [q] v' Cl Ev) as (st' & E2 & (out & E3 & E4 & E5) & _); [rewrite Hp; cbn [combine]; constructor; [exact Pl|constructor]|now rewrite Hp|exact Ev'|].
  exists st, st', out. repeat split; auto. rewrite <- E4. apply (po_replay _ _ _ _ E5).
Qed.
End Props.
Print Assumptions C36_fixed.
Print Assumptions C36_every.
Print Assumptions C36_cached.
Print Assumptions C36_rows.
Print Assumptions C36_every_lost.

(** ** Views whose updates are wrong *)
Definition bad_view (dbg : bool) (ps : list Z) (idx : list sidx) : Prop := exists p c, wf_shape ps /\ packed ps (shape_to_strides ps) /\
  basic_new (shape_to_size ps) ps (shape_to_strides ps) true idx = Ok (p, c) /\ ~ vnode_ok Z.eqb (view_node Z.eqb dbg ps p c) (view_fun ps idx).
Lemma bad_by a q v v' ps idx dbg p c : wf_shape ps -> packed ps (shape_to_strides ps) -> basic_new (shape_to_size ps) ps (shape_to_strides ps) true idx = Ok (p, c) ->
  view_fun ps idx [a] = Some v -> pin_ok Z.eqb ps a q -> view_fun ps idx [pview q] = Some v' ->
  match vn_init (view_node Z.eqb dbg ps p c) [still a] with
  | Ok st => match vn_prop (view_node Z.eqb dbg ps p c) st [q] with
             | Ok st' => match vn_out (view_node Z.eqb dbg ps p c) st' [q] with
                         | Some o => pview o <> v' \/ replay Z.eqb v (pdiff o) <> Some v'
                         | None => True
                         end
             | _ => True
             end
  | _ => True
  end -> bad_view dbg ps idx.
Proof.
  intros W P B E Pl E' H. exists p, c. split; [exact W|]. split; [exact P|]. split; [exact B|]. intros Ok.
  destruct (vnode_step Z.eqb ps _ _ a q v v' Ok eq_refl E Pl E') as (st & st' & o & E1 & E2 & E3 & E4 & E5).
  rewrite E1, E2, E3 in H. destruct H as [H|H]; auto.
Qed.
Ltac fit := first [reflexivity|exists 2; split; [lia|reflexivity]|exists 3; split; [lia|reflexivity]|exists 5; split; [lia|reflexivity]|exists 6; split; [lia|reflexivity]].
Ltac bad a q := eapply (bad_by a q); [split; [cbn [tl]; repeat first [apply Forall_nil|apply Forall_cons; [lia|]]|split; [vm_compute; reflexivity|cbn; lia]]|cbn; intuition lia|vm_compute; reflexivity|vm_compute; reflexivity
  |constructor; cbn [pview pdiff psdiff]; [fit|fit|vm_compute; reflexivity|reflexivity|intros; repeat constructor; discriminate]
  |vm_compute; reflexivity|vm_compute].

(** Two axes with a step: [x[:, ::2]] of a 3 by 4 array reports the change of element (2, 0) as one of (0, 1). *)
Theorem C36_two_axes_refuted : exists ps idx, forall dbg, bad_view dbg ps idx.
Proof.
  exists [3; 4], [ISlice (Slice 0 SMAX 1); ISlice (Slice 0 SMAX 2)]. intros [|];
    bad [0; 1; 2; 3; 4; 5; 6; 7; 8; 9; 10; 11] {| pview := [0; 1; 2; 3; 4; 5; 6; 7; 99; 9; 10; 11]; pdiff := [change 8 8 99]; psdiff := 0 |}; right; discriminate.
Qed.
Print Assumptions C36_two_axes_refuted.
(** One axis of two, with a step: [x[1, ::2]] reports nothing. *)
Theorem C36_later_start_refuted : exists ps idx, forall dbg, bad_view dbg ps idx.
Proof.
  exists [3; 4], [IInt 1; ISlice (Slice 0 SMAX 2)]. intros [|];
    bad [0; 1; 2; 3; 4; 5; 6; 7; 8; 9; 10; 11] {| pview := [0; 1; 2; 3; 4; 5; 99; 7; 8; 9; 10; 11]; pdiff := [change 6 6 99]; psdiff := 0 |}; right; discriminate.
Qed.
Print Assumptions C36_later_start_refuted.
(** Changing size with a step and a start: [x[1::2]] shows elements 2 and 4. *)
Theorem C36_dynamic_start_refuted : exists ps idx, forall dbg, bad_view dbg ps idx.
Proof.
  exists [-1], [ISlice (Slice 1 SMAX 2)]. intros [|]; bad [0; 1; 2; 3; 4] (still [0; 1; 2; 3; 4]); left; discriminate.
Qed.
Print Assumptions C36_dynamic_start_refuted.
(** Changing size with a step: [x[::2]] does not report that it lost its last element. *)
Theorem C36_dynamic_step_refuted : exists ps idx, forall dbg, bad_view dbg ps idx.
Proof.
  exists [-1], [ISlice (Slice 0 SMAX 2)]. intros [|]; bad [0; 1; 2] {| pview := [0; 1]; pdiff := [removal 2 2]; psdiff := -1 |}; right; discriminate.
Qed.
Print Assumptions C36_dynamic_step_refuted.
(** Changing size, rows of two, [x[0:2]]: changes in the second row are not reported. *)
Theorem C36_bounded_rows_refuted : exists ps idx, forall dbg, bad_view dbg ps idx.
Proof.
  exists [-1; 2], [ISlice (Slice 0 2 1); ISlice (Slice 0 SMAX 1)]. intros [|];
    bad [0; 1; 2; 3; 4; 5] {| pview := [0; 1; 99; 3; 4; 5]; pdiff := [change 2 2 99]; psdiff := 0 |}; right; discriminate.
Qed.
Print Assumptions C36_bounded_rows_refuted.
(** Not implemented: a step and a negative end. *)
Theorem C36_negative_stop_refuted : exists ps idx, forall dbg, bad_view dbg ps idx.
Proof.
  exists [-1], [ISlice (Slice 0 (-1) 2)]. intros [|]; bad [0; 1; 2; 3; 4; 5] {| pview := [0; 1; 99; 3; 4; 5]; pdiff := [change 2 2 99]; psdiff := 0 |}; first [exact I|right; discriminate].
Qed.
Print Assumptions C36_negative_stop_refuted.
(** Assertions that fail on correct views: the empty corner [x[3:, 4:]] of a 3 by 4 array, *)
Theorem C36_empty_corner_refuted : exists ps idx, bad_view true ps idx.
Proof.
  exists [3; 4], [ISlice (Slice 3 SMAX 1); ISlice (Slice 4 SMAX 1)].
  bad [0; 1; 2; 3; 4; 5; 6; 7; 8; 9; 10; 11] (still [0; 1; 2; 3; 4; 5; 6; 7; 8; 9; 10; 11]). exact I.
Qed.
Print Assumptions C36_empty_corner_refuted.
(** the last row [x[-1:]] of rows of two. *)
Theorem C36_cached_rows_refuted : exists ps idx, bad_view true ps idx.
Proof. exists [-1; 2], [ISlice (Slice (-1) SMAX 1); ISlice (Slice 0 SMAX 1)]. bad [0; 1; 2; 3; 4; 5] (still [0; 1; 2; 3; 4; 5]). exact I. Qed.
Print Assumptions C36_cached_rows_refuted.

(** ** Cases of the theorems *)
(** Rows 1 and 2 of a 3 by 4 array. *)
Example C36_fixed_example : vnode_ok Z.eqb (view_node Z.eqb true [3; 4] (Parsed [2; 4] [32; 8] 4 None) true) (view_fun [3; 4] [ISlice (Slice 1 3 1); ISlice (Slice 0 SMAX 1)]) /\
  view_fun [3; 4] [ISlice (Slice 1 3 1); ISlice (Slice 0 SMAX 1)] [[0; 1; 2; 3; 4; 5; 6; 7; 8; 9; 10; 11]] = Some [4; 5; 6; 7; 8; 9; 10; 11].
Proof.
  split; [|vm_compute; reflexivity]. apply (C36_fixed Z.eqb Z.eqb_spec true [3; 4] [32; 8]); [split; [cbn [tl]; repeat first [apply Forall_nil|apply Forall_cons; [lia|]]|split; [vm_compute; reflexivity|cbn; lia]]|reflexivity|cbn; intuition lia|repeat constructor; discriminate|vm_compute; reflexivity|reflexivity].
Qed.
(** Column 1 of a 3 by 4 array: elements 1, 5, 9. *)
Example C36_every_example : vnode_ok Z.eqb (view_node Z.eqb true [3; 4] (Parsed [3] [32] 1 None) false) (view_fun [3; 4] [ISlice (Slice 0 SMAX 1); IInt 1]) /\
  view_fun [3; 4] [ISlice (Slice 0 SMAX 1); IInt 1] [[0; 1; 2; 3; 4; 5; 6; 7; 8; 9; 10; 11]] = Some [1; 5; 9].
Proof.
  split; [|vm_compute; reflexivity]. apply (C36_every Z.eqb Z.eqb_spec true [3; 4] [32; 8] _ _ 3 4); [split; [cbn [tl]; repeat first [apply Forall_nil|apply Forall_cons; [lia|]]|split; [vm_compute; reflexivity|cbn; lia]]|reflexivity|cbn; intuition lia|repeat constructor; discriminate|vm_compute; reflexivity|reflexivity|reflexivity|reflexivity].
Qed.
(** The last three elements, with and without assertions; the last row of rows of two, without. *)
Example C36_cached_example : forall dbg, vnode_ok Z.eqb (view_node Z.eqb dbg [-1] (Parsed [-1] [8] 0 (Some (Slice (-3) SMAX 1))) true) (view_fun [-1] [ISlice (Slice (-3) SMAX 1)]) /\
  view_fun [-1] [ISlice (Slice (-3) SMAX 1)] [[0; 1; 2; 3; 4]] = Some [2; 3; 4].
Proof.
  intros dbg. split; [|vm_compute; reflexivity]. apply (C36_cached Z.eqb Z.eqb_spec dbg [] 8 []); [constructor|cbn; intuition lia|vm_compute; reflexivity|constructor|cbn; lia|reflexivity].
Qed.
Example C36_cached_rows_example : vnode_ok Z.eqb (view_node Z.eqb false [-1; 2] (Parsed [-1; 2] [16; 8] 0 (Some (Slice (-1) SMAX 1))) true) (view_fun [-1; 2] [ISlice (Slice (-1) SMAX 1); ISlice (Slice 0 SMAX 1)]) /\
  view_fun [-1; 2] [ISlice (Slice (-1) SMAX 1); ISlice (Slice 0 SMAX 1)] [[0; 1; 2; 3; 4; 5]] = Some [4; 5].
Proof.
  split; [|vm_compute; reflexivity]. apply (C36_cached Z.eqb Z.eqb_spec false [2] 16 [8]); [repeat constructor; discriminate|cbn; intuition lia|vm_compute; reflexivity|repeat constructor|cbn; lia|discriminate].
Qed.
(** All but the first and the last element; all rows. *)
Example C36_rows_example : forall dbg, vnode_ok Z.eqb (view_node Z.eqb dbg [-1] (Parsed [-1] [8] 0 (Some (Slice 1 (-1) 1))) true) (view_fun [-1] [ISlice (Slice 1 (-1) 1)]) /\
  view_fun [-1] [ISlice (Slice 1 (-1) 1)] [[0; 1; 2; 3; 4]] = Some [1; 2; 3].
Proof.
  intros dbg. split; [|vm_compute; reflexivity]. apply (C36_rows Z.eqb Z.eqb_spec dbg [] 8 []); [constructor|cbn; intuition lia|vm_compute; reflexivity|constructor|cbn [sstart]; unfold SMAX; lia|left; reflexivity].
Qed.
Example C36_all_rows_example : forall dbg, vnode_ok Z.eqb (view_node Z.eqb dbg [-1; 2] (Parsed [-1; 2] [16; 8] 0 (Some (Slice 0 SMAX 1))) true) (view_fun [-1; 2] [ISlice (Slice 0 SMAX 1); ISlice (Slice 0 SMAX 1)]).
Proof.
  intros dbg. apply (C36_rows Z.eqb Z.eqb_spec dbg [2] 16 [8]); [repeat constructor; discriminate|cbn; intuition lia|vm_compute; reflexivity|repeat constructor|cbn [sstart]; unfold SMAX; lia|right; cbn [sstart sstop]; unfold SMAX; lia].
Qed.
