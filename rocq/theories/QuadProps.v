From Verif Require Import Base SliceModel ShapeModel StateDataModel StateDataSpec NodeSpec BinaryModel Num NodeShape QuadModel QuadSpec BinaryProofs QuadProofs QuadProofs2 QuadProofs3.

(** C34: after any sequence of building operations on existing variables, every read returns what the
    symmetric table of biases says, in either order of the variables. *)
Theorem C34_reads : forall n m0 ops, qm_new n = Ok m0 -> Forall (qop_in (Z.to_nat n)) ops ->
  exists m, rfold run_qop m0 ops = Ok m /\
    let b := fold_left (spec_qop (Z.to_nat n)) ops no_biases in
    forall u v, u < Z.to_nat n -> v < Z.to_nat n ->
      get_linear m u = Ok (b_lin b u) /\ get_quadratic m u v = Ok (b_quad b u v) /\ get_quadratic m v u = Ok (b_quad b u v).
Proof.
  intros n m0 ops E F. destruct (new_rep n m0 E) as [R0 _]. destruct (run_qops_ok ops m0 _ _ R0 F) as (m & Em & R).
  exists m. split; [exact Em|]. intros b u v Hu Hv. split; [|split].
  - now apply (get_lin_ok m (Z.to_nat n)).
  - now apply (get_quad_ok m (Z.to_nat n)).
  - unfold b. rewrite (spec_sym (Z.to_nat n) ops no_biases (fun _ _ => eq_refl) u v). now apply (get_quad_ok m (Z.to_nat n)).
Qed.
Print Assumptions C34_reads.

(** The table: an operation changes exactly the bias it names, and the order of the two variables does
    not matter.  A bias not named since the start is zero. *)
Theorem C34_last_write : forall n b u v c i j,
  b_quad (spec_qop n b (SetQuad u v c)) u v = c /\ b_quad (spec_qop n b (SetQuad u v c)) v u = c /\
  b_quad (spec_qop n b (AddQuad u v c)) u v = (b_quad b u v + c)%Qc /\
  (~ ((i = u /\ j = v) \/ (i = v /\ j = u)) ->
     b_quad (spec_qop n b (SetQuad u v c)) i j = b_quad b i j /\ b_quad (spec_qop n b (AddQuad u v c)) i j = b_quad b i j) /\
  b_lin (spec_qop n b (SetLin u c)) u = c /\ b_lin (spec_qop n b (AddLin u c)) u = (b_lin b u + c)%Qc /\
  (i <> u -> b_lin (spec_qop n b (SetLin u c)) i = b_lin b i /\ b_lin (spec_qop n b (AddLin u c)) i = b_lin b i) /\
  b_lin (spec_qop n b (SetQuad u v c)) i = b_lin b i /\ b_quad (spec_qop n b (SetLin u c)) i j = b_quad b i j.
Proof.
  intros. cbn [spec_qop at_quad at_lin b_quad b_lin]. unfold same_pair. rewrite !Nat.eqb_refl. cbn [andb orb].
  rewrite Bool.orb_true_r. repeat (split; [reflexivity|]). split; [|repeat (split; [reflexivity|]); split].
  - intros H.
    destruct (Nat.eqb_spec u i), (Nat.eqb_spec v j), (Nat.eqb_spec u j), (Nat.eqb_spec v i); cbn [andb orb]; auto; exfalso; apply H; auto.
  - intros H. destruct (Nat.eqb_spec i u); [contradiction|]. auto.
  - auto.
Qed.
Print Assumptions C34_last_write.

(** Exporting everything and importing it into a new model of the same size gives the same reads; the
    exported triples number [num_interactions], each with the smaller variable first. *)
Theorem C34_export : forall n m0 ops m, qm_new n = Ok m0 -> Forall (qop_in (Z.to_nat n)) ops -> rfold run_qop m0 ops = Ok m ->
  exists m', rfold run_qop m0 [AddLins (get_linears m); AddSquares (get_squares m); AddQuads (get_quadratics m)] = Ok m' /\
    (forall u v, u < Z.to_nat n -> v < Z.to_nat n ->
       get_linear m' u = get_linear m u /\ get_quadratic m' u v = get_quadratic m u v) /\
    length (get_linears m) = Z.to_nat n /\ length (get_squares m) = Z.to_nat n /\
    length (get_quadratics m) = qm_interactions m /\
    Forall (fun t => fst (fst t) < snd (fst t) /\ snd (fst t) < Z.to_nat n) (get_quadratics m).
Proof.
  intros n m0 ops m E F Em. destruct (new_rep n m0 E) as [R0 _]. destruct (run_qops_ok ops m0 _ _ R0 F) as (m1 & Em1 & R).
  assert (m1 = m) by congruence. subst m1. clear Em1.
  pose proof (spec_sym (Z.to_nat n) ops no_biases (fun _ _ => eq_refl)) as S.
  destruct (export_rep m _ _ m0 R R0 S) as (m' & E' & R'). exists m'. split; [exact E'|].
  split; [|split; [|split; [|split]]].
  - intros u v Hu Hv. rewrite (get_lin_ok _ _ _ u R Hu), (get_lin_ok _ _ _ u R' Hu), (get_quad_ok _ _ _ u v R Hu Hv), (get_quad_ok _ _ _ u v R' Hu Hv). auto.
  - unfold get_linears. rewrite firstn_length, (rp_n _ _ _ R). destruct R. lia.
  - unfold get_squares. rewrite firstn_length, (rp_n _ _ _ R). destruct R. lia.
  - exact (interactions _ _ _ R).
  - apply Forall_forall. intros t I. exact (export_in _ _ _ t R I).
Qed.
Print Assumptions C34_export.

Example C34_example : exists m0 m,
  let ops := [AddQuad 2 0 (zq 5); SetLin 1 (zq 4); AddQuad 0 2 (zq 3); SetQuad 1 1 (zq 7); AddQuad 1 2 (zq 1); SetQuad 2 1 (zq 9)] in
  qm_new 3 = Ok m0 /\ Forall (qop_in (Z.to_nat 3)) ops /\ rfold run_qop m0 ops = Ok m /\
  get_quadratic m 0 2 = Ok (zq 8) /\ get_quadratic m 2 1 = Ok (zq 9) /\ get_quadratic m 1 1 = Ok (zq 7) /\
  get_quadratic m 0 1 = Ok (zq 0) /\ qm_interactions m = 2 /\ map fst (get_quadratics m) = [(0, 2); (1, 2)] /\ qm_new (-1) = Throw.
Proof.
  eexists. eexists. split; [vm_compute; reflexivity|]. split; [repeat constructor; cbn; lia|].
  split; [vm_compute; reflexivity|]. repeat split; try (vm_compute; reflexivity);
    match goal with |- ?a = Ok ?b => let x := eval vm_compute in a in match x with Ok ?y => transitivity (Ok y); [vm_compute; reflexivity|]; f_equal; apply Qc_is_canon; reflexivity end end.
Qed.

(** C33: the node is accepted exactly over a vector with one entry per variable, and then maintains the
    value of the polynomial, from initialisation and through any moves, committed or reverted. *)
Theorem C33_value : forall n m0 ops m, qm_new n = Ok m0 -> Forall (qop_in (Z.to_nat n)) ops -> rfold run_qop m0 ops = Ok m ->
  node_ok qeqb (qn_node m) (q_fun (Z.to_nat n) (fold_left (spec_qop (Z.to_nat n)) ops no_biases)) /\
  nd_pre (qn_node m) = [[n]] /\ nd_shape (qn_node m) = [].
Proof.
  intros n m0 ops m E F Em. destruct (new_rep n m0 E) as [R0 Hn]. destruct (run_qops_ok ops m0 _ _ R0 F) as (m1 & Em1 & R).
  assert (m1 = m) by congruence. subst m1. split.
  - exact (quad_ok m _ _ R (spec_sym (Z.to_nat n) ops no_biases (fun _ _ => eq_refl))).
  - split; [|reflexivity]. cbn [qn_node nd_pre]. rewrite (rp_n _ _ _ R). now rewrite Z2Nat.id by lia.
Qed.
Print Assumptions C33_value.

Theorem C33_accepts : forall m s, qn_new m s = Ok tt <-> s = [Z.of_nat (qm_n m)].
Proof.
  intros m s. unfold qn_new. destruct (zlist_eqb_spec s [Z.of_nat (qm_n m)]) as [H|H]; split; intros E; try assumption; try discriminate; auto; contradiction.
Qed.
Print Assumptions C33_accepts.

(** x0 goes 1 -> 0 -> 3 and x1 2 -> 5 in one move; the value is that of the polynomial, and reverting
    restores it. *)
Example C33_example : exists m0 m d d',
  let ops := [SetLin 0 (zq 2); AddQuad 0 1 (zq 3); SetQuad 1 1 (zq 1); AddQuad 0 0 (zq 1)] in
  qm_new 2 = Ok m0 /\ rfold run_qop m0 ops = Ok m /\
  qn_init m [still [zq 1; zq 2]] = Ok d /\
  qn_prop m d [Pin [zq 3; zq 5] [change 0 (zq 1) (zq 0); change 1 (zq 2) (zq 5); change 0 (zq 0) (zq 3)] 0] = Ok d' /\
  qd_val d = zq 13 /\ qd_val d' = zq 85 /\ qd_prev (qd_revert d') = [zq 1; zq 2] /\ qd_val (qd_revert d') = zq 13 /\
  replay qeqb [zq 1; zq 2] [change 0 (zq 1) (zq 0); change 1 (zq 2) (zq 5); change 0 (zq 0) (zq 3)] = Some [zq 3; zq 5].
Proof.
  do 4 eexists. split; [vm_compute; reflexivity|]. split; [vm_compute; reflexivity|]. split; [vm_compute; reflexivity|].
  split; [vm_compute; reflexivity|]. repeat split; try (vm_compute; reflexivity); try (apply Qc_is_canon; reflexivity).
Qed.
