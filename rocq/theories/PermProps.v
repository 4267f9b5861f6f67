From Verif Require Import Base SliceModel ShapeModel ShapeSpec ShapeProofs StateDataModel StateDataSpec NodeSpec NodeShape BinaryModel Num QuadModel PermModel PermSpec PermProofs PermProofs2.

(** C37: the reordered array, element by element. *)
Theorem C37_element : forall n k a zs v idx, perm_fun n k [a; zqs zs] = Some v ->
  in_range (repeat (Z.of_nat n) k) idx ->
  let order i := Z.of_nat (nth (Z.to_nat i) zs 0) in
  in_range (repeat (Z.of_nat n) k) (map order idx) /\
  nth_error v (Z.to_nat (rank (repeat (Z.of_nat n) k) idx)) = nth_error a (Z.to_nat (rank (repeat (Z.of_nat n) k) (map order idx))).
Proof.
  intros n k a zs v idx H R order. destruct (perm_fun_form _ _ _ _ _ H) as (zs' & Ez & F & L & La & ->).
  apply zqs_inj in Ez. subst zs'.
  assert (E : exists i, idx = map Z.of_nat i /\ valid n k i).
  { clear - R. revert idx R. induction k as [|k IH]; intros idx R; cbn [repeat] in R; inversion R as [|? x ? t Hx Ht]; subst.
    - exists []. auto.
    - destruct (IH t Ht) as (i & -> & Li & Fi). exists (Z.to_nat x :: i). cbn [map length]. rewrite Z2Nat.id by lia.
      repeat split; auto. constructor; [lia|assumption]. }
  destruct E as (i & -> & V). pose proof V as [Li Fi].
  assert (En : map order (map Z.of_nat i) = map Z.of_nat (map (fun j => nth j zs 0) i)).
  { rewrite !map_map. apply map_ext. intros j. unfold order. now rewrite Nat2Z.id. }
  assert (V' : valid n k (map (fun j => nth j zs 0) i)).
  { split; [now rewrite map_length|]. apply Forall_map. eapply Forall_impl; [|exact Fi]. cbn. intros j Hj.
    rewrite Forall_forall in F. apply F, nth_In. lia. }
  rewrite En. split.
  - destruct V' as [L' F']. revert L' F'. generalize (map (fun j => nth j zs 0) i) as t. clear. intros t L F. subst k.
    induction F as [|x t Hx F IH]; cbn [length repeat map]; constructor; [lia|exact IH].
  - rewrite !rank_nrank by (auto; now rewrite map_length). rewrite !Nat2Z.id. unfold pvals. rewrite nth_error_map, nidx_nth by auto.
    cbn [option_map]. symmetry. apply nth_error_nth'. rewrite La. now apply nrank_lt.
Qed.
Print Assumptions C37_element.

(** Initialisation, for any number of axes, of an array of less than 2^31 bytes. *)
Theorem C37_initial : forall n k a o v, 0 < n -> (8 * Z.of_nat (n ^ k) < 2147483648)%Z -> perm_fun n k [a; o] = Some v ->
  exists d, perm_init n k [still a; still o] = Ok d /\ i_dat d = v /\ i_diff d = [].
Proof.
  intros n k a o v Hn B H. destruct (perm_fun_form _ _ _ _ _ H) as (zs & -> & F & L & La & ->).
  eexists. split; [apply perm_init_ok; auto|]. split; reflexivity.
Qed.
Print Assumptions C37_initial.

(** Moves on a square matrix. *)
Theorem C37_moves : forall n, 0 < n -> (8 * Z.of_nat (n ^ 2) < 2147483648)%Z ->
  node_ok_if qeqb (perm_moves n) (perm_node n 2) (perm_fun n 2).
Proof. exact perm_ok. Qed.
Print Assumptions C37_moves.

(** What the constructor accepts. *)
Theorem C37_accepts : forall konst ash osh integral omax, wf_shape ash -> wf_shape osh -> dynamic ash = false ->
  perm_new konst ash osh integral omax = Ok tt <->
  konst = true /\ integral = true /\ (exists n k, ash = repeat n (S k) /\ osh = [n]) /\ (omax <= zq (prod ash))%Qc.
Proof.
  intros konst ash osh integral omax Wa Wo Da. unfold perm_new. destruct konst; cbn [negb]; [|split; [discriminate|intros (H & _); discriminate]].
  destruct ash as [|n rest]; [split; [discriminate|intros (_ & _ & (n & k & H & _) & _); discriminate]|].
  assert (Sq : forallb (fun p => (fst p =? snd p)%Z) (combine rest (n :: rest)) = true <-> rest = repeat n (length rest)).
  { clear. revert n. induction rest as [|x rest IH]; intros n; cbn [combine forallb repeat length fst snd]; [tauto|].
    rewrite Bool.andb_true_iff, Z.eqb_eq, IH. split.
    - intros [-> H]. now rewrite <- H.
    - intros H. injection H as -> H. auto. }
  rewrite (static_size _ Wa Da).
  destruct (forallb _ (combine rest (n :: rest))) eqn:Q; cbn [negb].
  2:{ split; [discriminate|]. intros (_ & _ & (m & k & H & _) & _). exfalso. cbn [repeat] in H. injection H as <- ->.
      assert (X : repeat n k = repeat n (length (repeat n k))) by now rewrite repeat_length. apply Sq in X. discriminate X. }
  assert (Q' : rest = repeat n (length rest)) by now apply Sq. destruct (dynamic osh) eqn:Do.
  { split; [discriminate|]. intros (_ & _ & (m & k & H & ->) & _). cbn [repeat] in H. injection H as <- _. cbn in Da, Do. congruence. }
  destruct integral; cbn [negb]; [|split; [discriminate|intros (_ & H & _); discriminate]].
  rewrite (static_size _ Wo Do).
  destruct (Nat.eqb_spec (length osh) 1) as [Lo|Lo]; cbn [negb].
  2:{ split; [discriminate|]. intros (_ & _ & (m & k & _ & ->) & _). contradiction Lo. reflexivity. }
  destruct osh as [|m [|]]; try discriminate Lo. cbn [prod] in *. rewrite Z.mul_1_r.
  destruct (Z.eqb_spec n m) as [<-|N]; cbn [negb].
  2:{ split; [discriminate|]. intros (_ & _ & (x & k & H & Hx) & _). cbn [repeat] in H. exfalso. congruence. }
  destruct (qltb_spec (zq (n * prod rest)) omax) as [Lt|Lt].
  - split; [discriminate|]. intros (_ & _ & _ & H). cbn [prod] in H. exfalso. exact (Qcle_not_lt _ _ H Lt).
  - split; [|reflexivity]. intros _. repeat split; auto.
    + exists n, (length rest). split; [|reflexivity]. cbn [repeat]. now rewrite <- Q'.
    + apply Qcnot_lt_le. exact Lt.
Qed.
Print Assumptions C37_accepts.

(** The check on the order's maximum is against the number of elements, not the side, and its minimum is
    not checked: orders that index outside the array are accepted, and read outside it. *)
Theorem C37_bounds_refuted : exists a o omax,
  perm_new true [2; 2]%Z [2]%Z true omax = Ok tt /\ length a = 4 /\ Forall (fun x => 0 <= x /\ x <= omax)%Qc o /\
  perm_init 2 2 [still a; still o] = UB.
Proof.
  exists [zq 10; zq 11; zq 12; zq 13], [zq 0; zq 3], (zq 3). split; [vm_compute; reflexivity|]. split; [reflexivity|].
  split; [|vm_compute; reflexivity]. rewrite <- zq_0. repeat constructor; apply zq_le; lia.
Qed.
Print Assumptions C37_bounds_refuted.

(** Swapping two entries of the order of a vector is accepted and reads past its end. *)
Theorem C37_vector_refuted : exists a us d,
  perm_new true [2]%Z [2]%Z true (zq 1) = Ok tt /\
  perm_init 2 1 [still a; still [zq 0; zq 1]] = Ok d /\ replay qeqb [zq 0; zq 1] us = Some [zq 1; zq 0] /\
  perm_fun 2 1 [a; [zq 1; zq 0]] <> None /\ perm_moves 2 [still a; Pin [zq 1; zq 0] us 0] /\
  perm_prop 2 1 d [still a; Pin [zq 1; zq 0] us 0] = UB.
Proof.
  exists [zq 10; zq 11], [change 0 (zq 0) (zq 1); change 1 (zq 1) (zq 0)]. eexists.
  split; [vm_compute; reflexivity|]. split; [vm_compute; reflexivity|]. split; [vm_compute; reflexivity|].
  split; [vm_compute; discriminate|]. split; [|vm_compute; reflexivity].
  split; [reflexivity|]. repeat constructor; cbn; intros x [H|H]; injection H as <-; vm_compute; discriminate.
Qed.
Print Assumptions C37_vector_refuted.

(** And in three dimensions a move gives wrong values: changing the second entry of an order of two. *)
Theorem C37_cube_refuted : exists a us d,
  perm_new true [2; 2; 2]%Z [2]%Z true (zq 1) = Ok tt /\
  perm_init 2 3 [still a; still [zq 0; zq 0]] = Ok d /\ replay qeqb [zq 0; zq 0] us = Some [zq 0; zq 1] /\
  perm_moves 2 [still a; Pin [zq 0; zq 1] us 0] /\
  exists d' v, perm_prop 2 3 d [still a; Pin [zq 0; zq 1] us 0] = Ok d' /\
    perm_fun 2 3 [a; [zq 0; zq 1]] = Some v /\ i_dat d' <> v.
Proof.
  exists [zq 10; zq 11; zq 12; zq 13; zq 14; zq 15; zq 16; zq 17], [change 1 (zq 0) (zq 1)]. eexists.
  split; [vm_compute; reflexivity|]. split; [vm_compute; reflexivity|]. split; [vm_compute; reflexivity|].
  split; [split; [reflexivity|]; repeat constructor; cbn; intros x [H|H]; injection H as <-; vm_compute; discriminate|].
  eexists. eexists. split; [vm_compute; reflexivity|]. split; [vm_compute; reflexivity|]. vm_compute. discriminate.
Qed.
Print Assumptions C37_cube_refuted.

(** An empty array is accepted and its initialisation reads [order[0]]. *)
Theorem C37_empty_refuted : perm_new true [0; 0]%Z [0]%Z true (zq (-1)) = Ok tt /\ perm_init 0 2 [still []; still []] = UB /\
  perm_fun 0 2 [[]; []] = Some [].
Proof. split; [vm_compute; reflexivity|]. split; reflexivity. Qed.
Print Assumptions C37_empty_refuted.

(** Rows and columns of a 3 x 3 matrix move together. *)
Example C37_example : exists d d',
  let a := map zq [1; 2; 3; 4; 5; 6; 7; 8; 9]%Z in
  let us := [change 0 (zq 0) (zq 2); change 2 (zq 2) (zq 0)] in
  perm_init 3 2 [still a; still (zqs [0; 1; 2])] = Ok d /\ perm_moves 3 [still a; Pin (zqs [2; 1; 0]) us 0] /\
  perm_prop 3 2 d [still a; Pin (zqs [2; 1; 0]) us 0] = Ok d' /\ i_dat d' = map zq [9; 8; 7; 6; 5; 4; 3; 2; 1]%Z /\ length (i_diff d') = 12.
Proof.
  eexists. eexists. split; [vm_compute; reflexivity|].
  split; [split; [reflexivity|]; repeat constructor; cbn; intros x [H|H]; injection H as <-; vm_compute; discriminate|].
  split; [vm_compute; reflexivity|]. split; vm_compute; reflexivity.
Qed.
