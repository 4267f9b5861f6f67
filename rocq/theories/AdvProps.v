(** C35: advanced indexing. *)
From Verif Require Import Base SliceModel ShapeModel ShapeSpec StateDataModel StateDataSpec NodeSpec Num PermSpec AdvModel AdvSpec AdvSpec2 AdvProofs5 AdvProofs10 AdvProofs11 AdvProofs12.
Local Open Scope Z_scope.

(** The constructor accepts exactly the proper indices. *)
Theorem C35_accepts dbg ashape least ix ishape : wf_shape ashape -> ashape <> [] ->
  (forall s src i lo hi, In (AArr s src i lo hi) ix -> wf_shape s) ->
  ((exists A, adv_new dbg ashape least ix = Ok A /\ ad_ishape A = ishape) <->
   adv_accepts ashape least ix ishape /\ (dbg = true -> ~ In (ASlice false) ix)).
Proof. intros. apply adv_new_iff; assumption. Qed.
Print Assumptions C35_accepts.

(** The shape of the result is NumPy's. *)
Theorem C35_shape dbg ashape least ix A : adv_new dbg ashape least ix = Ok A ->
  ad_oshape A = adv_shape ashape (map is_arr ix) (ad_ishape A).
Proof. intros H. destruct (adv_new_ok _ _ _ _ _ H) as (OK & <- & <-). apply shape_ok. exact OK. Qed.
Print Assumptions C35_shape.

(** If the indices keep to their declared bounds and the array to its smallest size, every element that
    the result needs exists. *)
Theorem C35_in_range ashape least ix ishape a arrs n : wf_shape ashape -> adv_accepts ashape least ix ishape -> fits ashape a ->
  (dynamic ashape = true -> forall z, least = Some z -> z <= Z.of_nat (length a)) ->
  Forall2 honest (filter is_arr ix) arrs -> Forall (fun l => length l = n) arrs ->
  exists v, adv_fun ashape (Z.to_nat (Z.quot (match least with Some z => z | None => 0 end) (prod (tl ashape)))) (map is_arr ix) (a :: arrs) = Some v.
Proof. apply reads_ok. Qed.
Print Assumptions C35_in_range.

(** The node shows the gathered array: after initialisation, and after every change that is committed or
    reverted, with updates that are exactly the difference. *)
Theorem C35_node strict dbg ashape least ix A konst m : adv_new dbg ashape least ix = Ok A -> wf_shape ashape ->
  adv_supported konst ashape (map is_arr ix) (ad_ishape A) ->
  (strict = true -> dynamic (ad_ishape A) = false /\ (dynamic ashape = false \/ hd false (map is_arr ix) = true)) ->
  node_ok_if qeqb (adv_moves konst ashape m (map is_arr ix)) (adv_node strict dbg A konst) (adv_fun ashape m (map is_arr ix)).
Proof.
  intros H WF SUP SAFE. destruct (adv_new_ok _ _ _ _ _ H) as (OK & Es & Ei). rewrite <- Es, <- Ei in *.
  apply adv_node_ok; auto.
  - apply supported_ok; auto.
  - intros S. apply SAFE. exact S.
  - intros S B. destruct (SAFE S) as [_ [|Hh]]; [assumption|]. rewrite (ok_b1 _ OK), Hh, orb_true_r in B. discriminate.
Qed.
Print Assumptions C35_node.

Definition zs : list Z -> list num := map zq.
(** [A[:, i, j]] on a 3x2x2 array with two indices. *)
Definition ex_ix := [ASlice true; AArr [2] 0 true (zq 0) (zq 1); AArr [2] 0 true (zq 0) (zq 1)].
Definition ex_A := Eval vm_compute in match adv_new true [3; 2; 2] None ex_ix with Ok A => A | _ => Adv [] [] false 0 0 0 [] [] [] [] end.
Example C35_ex_new : adv_new true [3; 2; 2] None ex_ix = Ok ex_A /\ ad_oshape ex_A = [3; 2].
Proof. vm_compute. auto. Qed.
Example C35_ex_wf : wf_shape [3; 2; 2] /\ adv_supported false [3; 2; 2] (map is_arr ex_ix) (ad_ishape ex_A).
Proof. split; [repeat constructor; lia|]. right. left. split; [reflexivity|]. intros H. apply separatedb_spec in H. vm_compute in H. discriminate. Qed.
Definition ex_a := zs [0; 1; 2; 3; 10; 11; 12; 13; 20; 21; 22; 23].
Example C35_ex_fun : adv_fun [3; 2; 2] 0 (map is_arr ex_ix) [ex_a; zs [0; 1]; zs [1; 0]] = Some (zs [1; 2; 11; 12; 21; 22]).
Proof. vm_compute. reflexivity. Qed.
(** One index and one element of the array change. *)
Definition ex_pins := [Pin (zs [0; 1; 2; 3; 10; 11; 12; 13; 20; 99; 22; 23]) [change 9 (zq 21) (zq 99)] 0;
                       Pin (zs [0; 0]) [change 1 (zq 1) (zq 0)] 0; Pin (zs [1; 0]) [] 0].
Example C35_ex_run : adv_run true true ex_A false [ex_a; zs [0; 1]; zs [1; 0]] ex_pins = Ok (Some (zs [1; 0; 11; 10; 99; 20])) /\
  adv_moves false [3; 2; 2] 0 (map is_arr ex_ix) ex_pins.
Proof.
  split; [vm_compute; reflexivity|]. split; [discriminate|]. split; [discriminate|].
  repeat constructor; discriminate.
Qed.
Example C35_ex_in_range : Forall2 honest (filter is_arr ex_ix) [zs [0; 1]; zs [1; 0]].
Proof. repeat constructor; try (vm_compute; reflexivity); eexists; reflexivity. Qed.

(** [A[i, :]] where the number of indices and the number of rows are state-dependent. *)
Definition dyn_ix := [AArr [-1] 7 true (zq 0) (zq 1); ASlice true].
Definition dyn_A := Eval vm_compute in match adv_new true [-1; 2] (Some 4) dyn_ix with Ok A => A | _ => Adv [] [] false 0 0 0 [] [] [] [] end.
Example C35_ex_dyn : adv_new true [-1; 2] (Some 4) dyn_ix = Ok dyn_A /\ ad_oshape dyn_A = [-1; 2] /\
  adv_supported false [-1; 2] (map is_arr dyn_ix) (ad_ishape dyn_A) /\
  adv_run false true dyn_A false [zs [0; 1; 10; 11]; zs [1]]
    [Pin (zs [0; 1; 10; 11; 20; 21]) [placement 4 (zq 20); placement 5 (zq 21)] 2; Pin (zs [1; 0; 1]) [placement 1 (zq 0); placement 2 (zq 1)] 2]
  = Ok (Some (zs [10; 11; 0; 1; 10; 11])).
Proof. split; [vm_compute; reflexivity|]. split; [reflexivity|]. split; [left; reflexivity|]. vm_compute. reflexivity. Qed.

(** [A[:, i, :, j]]: the first axis of the array is mapped to the axis of the indices. *)
Definition sep_ix := [ASlice true; AArr [2] 0 true (zq 0) (zq 1); ASlice true; AArr [2] 0 true (zq 0) (zq 1)].
Definition sep_A := Eval vm_compute in match adv_new true [2; 2; 2; 2] None sep_ix with Ok A => A | _ => Adv [] [] false 0 0 0 [] [] [] [] end.
Definition sep_a := zs [0; 1; 2; 3; 4; 5; 6; 7; 8; 9; 10; 11; 12; 13; 14; 15].
Definition sep_pins := [Pin (zs [0; 1; 2; 3; 4; 5; 6; 7; 99; 9; 10; 11; 12; 13; 14; 15]) [change 8 (zq 8) (zq 99)] 0; Pin (zs [0; 1]) [] 0; Pin (zs [0; 1]) [] 0].
Theorem C35_separated_refuted : exists ashape ix A ins pins v v' w,
  adv_new true ashape None ix = Ok A /\ wf_shape ashape /\ adv_accepts ashape None ix (ad_ishape A) /\
  adv_fun ashape 0 (map is_arr ix) ins = Some v /\
  Forall2 (fun si p => pin_ok qeqb (fst si) (snd si) p) (combine (nd_pre (adv_node false false A false)) ins) pins /\
  adv_moves false ashape 0 (map is_arr ix) pins /\
  adv_fun ashape 0 (map is_arr ix) (map (@pview num) pins) = Some v' /\
  adv_run false false A false ins pins = Ok (Some w) /\ w <> v'.
Proof.
  exists [2; 2; 2; 2], sep_ix, sep_A, [sep_a; zs [0; 1]; zs [0; 1]], sep_pins,
    (zs [0; 2; 8; 10; 5; 7; 13; 15]), (zs [0; 2; 99; 10; 5; 7; 13; 15]), (zs [0; 2; 8; 10; 99; 7; 13; 15]).
  split; [vm_compute; reflexivity|]. split; [repeat constructor; lia|]. split.
  { apply (adv_new_iff true [2; 2; 2; 2] None sep_ix).
    - repeat constructor; lia.
    - discriminate.
    - intros s src i lo hi H. repeat (destruct H as [H|H]; [try discriminate; injection H; intros; subst; repeat constructor; lia|]). destruct H.
    - exists sep_A. split; [vm_compute|]; reflexivity. }
  split; [vm_compute; reflexivity|]. split.
  { repeat constructor; try (vm_compute; reflexivity); try discriminate; try (intros _; repeat constructor; discriminate). }
  split; [split; [discriminate|]; split; [discriminate|]; repeat constructor|]. split; [vm_compute; reflexivity|]. split; [vm_compute; reflexivity|].
  vm_compute. discriminate.
Qed.
Print Assumptions C35_separated_refuted.

(** [A[:, :, i]] with a state-dependent number of rows: a new row is put in the wrong places. *)
Definition row_ix := [ASlice true; ASlice true; AArr [2] 0 true (zq 0) (zq 1)].
Definition row_A := Eval vm_compute in match adv_new true [-1; 2; 2] (Some 0) row_ix with Ok A => A | _ => Adv [] [] false 0 0 0 [] [] [] [] end.
Definition row_pins := [Pin (zs [0; 1; 2; 3]) [placement 0 (zq 0); placement 1 (zq 1); placement 2 (zq 2); placement 3 (zq 3)] 4; Pin (zs [0; 1]) [] 0].
Theorem C35_rows_refuted : exists ashape ix A ins pins v v' w,
  adv_new true ashape (Some 0) ix = Ok A /\ wf_shape ashape /\
  adv_fun ashape 0 (map is_arr ix) ins = Some v /\
  Forall2 (fun si p => pin_ok qeqb (fst si) (snd si) p) (combine (nd_pre (adv_node false false A false)) ins) pins /\
  adv_moves false ashape 0 (map is_arr ix) pins /\
  adv_fun ashape 0 (map is_arr ix) (map (@pview num) pins) = Some v' /\
  adv_run false false A false ins pins = Ok (Some w) /\ w <> v' /\ adv_run false true A false ins pins = UB.
Proof.
  exists [-1; 2; 2], row_ix, row_A, [[]; zs [0; 1]], row_pins, [], (zs [0; 1; 2; 3]), (zs [0; 2; 1; 3]).
  split; [vm_compute; reflexivity|]. split; [repeat constructor; lia|].
  split; [vm_compute; reflexivity|]. split.
  { repeat constructor; try (vm_compute; reflexivity); try discriminate.
    - exists 0. split; [lia|reflexivity].
    - exists 1. split; [lia|reflexivity]. }
  split; [split; [discriminate|]; split; [discriminate|]; repeat constructor|]. split; [vm_compute; reflexivity|]. split; [vm_compute; reflexivity|].
  split; [vm_compute; discriminate|]. vm_compute. reflexivity.
Qed.
Print Assumptions C35_rows_refuted.

(** [A[:, i]] with a single index and a state-dependent number of rows: accepted, but the state cannot be made. *)
Definition one_ix := [ASlice true; AArr [] 0 true (zq 0) (zq 1)].
Theorem C35_scalar_refuted : exists A ins v, adv_new true [-1; 2] (Some 0) one_ix = Ok A /\
  Forall2 fits (nd_pre (adv_node false true A false)) ins /\
  adv_fun [-1; 2] 0 (map is_arr one_ix) ins = Some v /\ nd_init (adv_node false true A false) (map still ins) = Throw.
Proof.
  eexists _, [zs [0; 1]; zs [1]], (zs [1]). split; [vm_compute; reflexivity|]. split.
  { repeat constructor. exists 1. split; [lia|reflexivity]. }
  split; vm_compute; reflexivity.
Qed.
Print Assumptions C35_scalar_refuted.

(** Without the licence to convert NaN to an integer, removing an index is undefined. *)
Theorem C35_shrink_refuted : exists ins pins v v', adv_fun [-1; 2] 2 (map is_arr dyn_ix) ins = Some v /\
  Forall2 (fun si p => pin_ok qeqb (fst si) (snd si) p) (combine (nd_pre (adv_node true true dyn_A false)) ins) pins /\
  adv_moves false [-1; 2] 2 (map is_arr dyn_ix) pins /\
  adv_fun [-1; 2] 2 (map is_arr dyn_ix) (map (@pview num) pins) = Some v' /\
  adv_run true true dyn_A false ins pins = UB /\ adv_run false true dyn_A false ins pins = Ok (Some v').
Proof.
  exists [zs [0; 1; 10; 11]; zs [1; 0]], [Pin (zs [0; 1; 10; 11]) [] 0; Pin (zs [1]) [removal 1 (zq 0)] (-1)], (zs [10; 11; 0; 1]), (zs [10; 11]).
  split; [vm_compute; reflexivity|]. split.
  { repeat constructor; try (vm_compute; reflexivity); try discriminate.
    - exists 2. split; [lia|reflexivity].
    - exists 2. split; [lia|reflexivity].
    - exists 2. split; [lia|reflexivity].
    - exists 1. split; [lia|reflexivity]. }
  split; [split; [discriminate|]; split; [constructor|]; repeat constructor; discriminate|]. split; [vm_compute; reflexivity|]. split; vm_compute; reflexivity.
Qed.
Print Assumptions C35_shrink_refuted.

(** An array without axes passes the constructor with members not set, and an empty inner axis leads to
    a division by zero. *)
Theorem C35_no_axes_refuted : adv_new true [] None [] = UB /\
  exists A, adv_new true [2; 0] None [AArr [1] 0 true (zq 0) (zq 1); ASlice true] = Ok A /\
            nd_init (adv_node false true A false) (map still [[]; zs [1]]) = UB.
Proof. split; [reflexivity|]. eexists. split; vm_compute; reflexivity. Qed.
Print Assumptions C35_no_axes_refuted.
