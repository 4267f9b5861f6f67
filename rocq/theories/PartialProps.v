(** C29 sums along an axis. *)
From Verif Require Import Base SliceModel ShapeModel ShapeSpec ShapeProofs StateDataModel StateDataSpec StateDataProofs Replay
  NodeSpec NodeLib BinaryModel NodeShape BinaryProofs Num NaryModel NarySpec NaryProofs ReduceProofs PartialModel PartialSpec PartialProofs.

Lemma pr_new_inv s a out : wf_shape s -> pr_new s [a] = Ok out ->
  dynamic s = false /\ (1 <= prod s)%Z /\ (0 <= a)%Z /\ Z.to_nat a < length s /\ out = pr_shape s (Z.to_nat a).
Proof.
  intros W. unfold pr_new. destruct (Z.ltb_spec a 0), (Z.leb_spec (Z.of_nat (length s)) a); cbn [orb]; try discriminate.
  rewrite (size_neg s W). destruct (dynamic s) eqn:D; [discriminate|]. rewrite (static_size s W D).
  destruct (Z.ltb_spec (prod s) 1); [discriminate|]. intros E. assert (out = drop_axis (Z.to_nat a) s) by congruence.
  repeat split; auto; lia.
Qed.

(** Apart from a bad axis (see below), exactly the non-empty fixed-size operands with one axis are
    accepted and everything else is refused. *)
Theorem C29_accepts : forall s axes, wf_shape s ->
  (forall out, pr_new s axes = Ok out <->
     exists a, axes = [a] /\ (0 <= a < Z.of_nat (length s))%Z /\ dynamic s = false /\ (0 < prod s)%Z /\
       out = remove_at (Z.to_nat a) s) /\
  (pr_new s axes = Throw <->
     axes = [] \/ exists a rest, axes = a :: rest /\ (0 <= a < Z.of_nat (length s))%Z /\
       (dynamic s = true \/ prod s = 0%Z \/ rest <> [])).
Proof.
  intros s axes W. unfold pr_new, drop_axis, remove_at. destruct axes as [|a rest].
  { split; [intros out; split; [discriminate|intros (a & H & _); discriminate]|]. split; auto. }
  destruct (Z.ltb_spec a 0) as [A|A]; [|destruct (Z.leb_spec (Z.of_nat (length s)) a) as [B|B]]; cbn [orb].
  1,2: split; [intros out; split; [discriminate|]; intros (x & H & ? & _); injection H as -> _; lia|];
       split; [discriminate|]; intros [H|(x & r & H & ? & _)]; [discriminate H|]; injection H as -> _; lia.
  rewrite (size_neg s W). destruct (dynamic s) eqn:D.
  { split; [intros out; split; [discriminate|intros (x & _ & _ & H & _); discriminate]|].
    split; [|reflexivity]. intros _. right. exists a, rest. auto. }
  rewrite (static_size s W D). pose proof (wf_prod_nonneg s W D) as P. destruct (Z.ltb_spec (prod s) 1) as [C|C].
  { split; [intros out; split; [discriminate|intros (x & _ & _ & _ & H & _); lia]|].
    split; [|reflexivity]. intros _. right. exists a, rest. repeat split; auto. right. left. lia. }
  destruct rest as [|b rest].
  - split; [intros out; split|split; [discriminate|]].
    + intros H. exists a. assert (out = firstn (Z.to_nat a) s ++ skipn (S (Z.to_nat a)) s) by congruence. repeat split; auto. lia.
    + intros (x & H & _ & _ & _ & ->). now injection H as <-.
    + intros [H|(x & r & H & _ & [?|[?|N]])]; try discriminate; try lia. injection H as _ <-. now contradiction N.
  - split; [intros out; split; [discriminate|intros (x & H & _); discriminate]|].
    split; [|reflexivity]. intros _. right. exists a, (b :: rest). repeat split; auto. right. right. discriminate.
Qed.
Print Assumptions C29_accepts.

(** For any operand layout; with assertions compiled in ([dbg]) the strides must not be negative and
    the axis number must be smaller than the number of elements. *)
Theorem C29_axis_sum_node : forall dbg s pst a out init mem, wf_shape s -> pr_new s [a] = Ok out ->
  presents s pst mem ->
  (dbg = true -> (a < prod s)%Z /\ Forall (fun st => 0 <= st)%Z pst) ->
  node_ok qeqb (array_node 0%Qc out [s] (pr_init dbg s pst (Z.to_nat a) init mem) (pr_prop dbg s (Z.to_nat a)))
    (pr_fun s (Z.to_nat a) init).
Proof.
  intros dbg s pst a out init mem W H P D. destruct (pr_new_inv _ _ _ W H) as [Ds [Ps [A0 [A1 ->]]]].
  apply partial_ok_node; auto. rewrite Z2Nat.id by exact A0. exact D.
Qed.
Print Assumptions C29_axis_sum_node.

Theorem C29_contiguous_layout : forall s, presents s (shape_to_strides s) (fun l k => nth_error l (Z.to_nat k)).
Proof. exact contiguous_presents. Qed.
Print Assumptions C29_contiguous_layout.

(** What the value is, in terms of multi-indices; it always exists. *)
Theorem C29_axis_sum_value : forall s a out init l, wf_shape s -> pr_new s [a] = Ok out -> fits s l ->
  out = remove_at (Z.to_nat a) s /\
  exists v, pr_fun s (Z.to_nat a) init [l] = Some v /\ axis_sums init s (Z.to_nat a) l v.
Proof.
  intros s a out init l W H Hf. destruct (pr_new_inv _ _ _ W H) as [Ds [Ps [A0 [A1 ->]]]]. split; [reflexivity|].
  pose proof (proj1 (fits_length s _ W Ds Ps A1 l) Hf) as L.
  assert (E : exists v, pr_fun s (Z.to_nat a) init [l] = Some v).
  { unfold pr_fun, axis_fun. rewrite L, Nat.eqb_refl. eauto. }
  destruct E as [v E]. exists v. split; [exact E|]. now apply axis_sums_ok.
Qed.
Print Assumptions C29_axis_sum_value.

(** The index map drops the coordinate. *)
Theorem C29_index_map : forall s a out idx, wf_shape s -> pr_new s [a] = Ok out -> in_range s idx ->
  map_parent_index false s (Z.to_nat a) (Z.to_nat (prod s)) (Z.to_nat (rank s idx)) =
  Ok (rank out (remove_at (Z.to_nat a) idx)).
Proof.
  intros s a out idx W H R. destruct (pr_new_inv _ _ _ W H) as [Ds [Ps [A0 [A1 ->]]]].
  set (axis := Z.to_nat a) in *.
  destruct (split_axis s axis A1) as (s1 & d0 & s2 & E & L & _ & _ & _ & D).
  pose proof (all_pos s W Ds Ps) as P. unfold map_parent_index. cbn [andb]. unfold pr_shape. rewrite D.
  pose proof (rank_bounds _ _ R) as B. rewrite Z2Nat.id by lia. rewrite E in *.
  destruct (in_range_split _ _ _ R) as (i1 & i2' & -> & R1 & R2'). inversion R2' as [|x j y i2 Hj R2]; subst x y i2'.
  rewrite map_before; auto; try lia. pose proof (in_range_len _ _ R1) as L1.
  f_equal. rewrite Z.add_0_l. f_equal. unfold remove_at. rewrite <- L, L1.
  rewrite firstn_app, Nat.sub_diag, firstn_all, skipn_app, skipn_all2 by lia.
  replace (S (length i1) - length i1) with 1 by lia. cbn [firstn skipn app]. now rewrite app_nil_r.
Qed.
Print Assumptions C29_index_map.

(** One would expect an axis out of range to be refused; it is erased from the shape before the check. *)
Theorem C29_bad_axis_refuted : exists s a, wf_shape s /\ (Z.of_nat (length s) <= a)%Z /\ pr_new s [a] <> Throw.
Proof. exists [2; 3]%Z, 2%Z. split; [repeat split; repeat constructor; cbn; lia|]. split; [cbn; lia|]. vm_compute. discriminate. Qed.
Print Assumptions C29_bad_axis_refuted.

(** With assertions compiled in, a valid axis sum over few elements aborts on its first update: the
    assertion compares the axis with the number of elements instead of the number of axes. *)
Theorem C29_assertion_refuted : exists s a out l p,
  wf_shape s /\ pr_new s [a] = Ok out /\ pin_ok qeqb s l p /\
  forall d, pr_prop true s (Z.to_nat a) d [p] = UB.
Proof.
  exists [1; 1]%Z, 1%Z, [1]%Z, [zq 3], (Pin [zq 4] [change 0 (zq 3) (zq 4)] 0).
  split; [repeat split; repeat constructor; cbn; lia|]. split; [reflexivity|]. split; [|reflexivity].
  constructor; cbn [pview pdiff psdiff]; try reflexivity. intros _. repeat constructor; discriminate.
Qed.
Print Assumptions C29_assertion_refuted.

(** Shape (2, 3, 2), axis 1, contiguous. *)
Definition contents : list Qc := map zq [0; 1; 2; 3; 4; 5; 6; 7; 8; 9; 10; 11]%Z.
Example C29_example :
  pr_new [2; 3; 2]%Z [1]%Z = Ok [2; 2]%Z /\
  (exists d, pr_init true [2; 3; 2]%Z (shape_to_strides [2; 3; 2]%Z) 1 0 (fun l k => nth_error l (Z.to_nat k)) [still contents] = Ok d /\
     abuf d = map zq [6; 9; 24; 27]%Z) /\
  (exists d, pr_prop true [2; 3; 2]%Z 1 (a_init (map zq [6; 9; 24; 27]%Z))
     [Pin (lset 9 (zq 0) contents) [change 9 (zq 9) (zq 0)] 0] = Ok d /\ abuf d = map zq [6; 9; 24; 18]%Z).
Proof.
  split; [reflexivity|]. split.
  - eexists. split; [vm_compute; reflexivity|]. vm_compute. reflexivity.
  - eexists. split; [vm_compute; reflexivity|]. vm_compute. reflexivity.
Qed.

(** The same operand stored transposed: strides (8, 16, 48). *)
Example C29_strided_example :
  let mem l k := nth_error l (Z.to_nat (let k := k in (k mod 2) * 6 + (k / 2) mod 3 * 2 + k / 6)%Z) in
  exists d, pr_init true [2; 3; 2]%Z [8; 16; 48]%Z 1 0 mem [still contents] = Ok d /\ abuf d = map zq [6; 9; 24; 27]%Z.
Proof. eexists. split; [vm_compute; reflexivity|]. vm_compute. reflexivity. Qed.
