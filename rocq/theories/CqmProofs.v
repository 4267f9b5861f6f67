(** Models of constrained quadratic models: quadratic models given by coordinates. *)
From Verif Require Import Base Num SliceModel ShapeModel StateDataModel NodeSpec BinaryModel NaryModel ReduceModel BoundsModel AdvModel NarySpec ReduceSpec BinarySpec
  QuadModel QuadSpec QuadProofs QuadProofs2 PyModel GenModel PySpec GenSpec PyProofs PyValues PyRules GenProofs GenProofs6 GenProofs7 CqmModel CqmSpec.
Set Implicit Arguments.
Local Open Scope Qc_scope.

(** * Adding to the biases adds to the polynomial *)
Lemma qvalue_same n b c x : (forall i, (i < n)%nat -> b_lin b i = b_lin c i) -> (forall i j, (i < n)%nat -> (j < n)%nat -> b_quad b i j = b_quad c i j) -> qvalue n b x = qvalue n c x.
Proof.
  intros H1 H2. unfold qvalue. f_equal; [apply sumn_ext; intros i Hi; now rewrite H1|]. apply sumn_ext. intros i Hi. apply sumn_ext. intros j Hj. rewrite H2 by lia. reflexivity.
Qed.
Lemma lin_value n b x v c : (v < n)%nat -> qvalue n (at_lin v (fun o => o + c) b) x = qvalue n b x + c * x v.
Proof.
  induction n as [|n IH]; intros H; [lia|]. rewrite !qvalue_S. cbn [at_lin b_lin b_quad]. destruct (Nat.eq_dec v n) as [->|N].
  - rewrite Nat.eqb_refl. rewrite (@qvalue_same n (at_lin n (fun o => o + c) b) b x); [ring| |reflexivity]. intros i Hi. cbn. destruct (Nat.eqb_spec i n); [lia|reflexivity].
  - destruct (Nat.eqb_spec n v); [congruence|]. rewrite IH by lia. ring.
Qed.
Lemma same_pair_comm u v i j : same_pair u v i j = same_pair v u i j.
Proof. unfold same_pair. destruct (Nat.eqb_spec u i), (Nat.eqb_spec v j), (Nat.eqb_spec u j), (Nat.eqb_spec v i); reflexivity. Qed.
Lemma quad_value_le n b x u v c : (u <= v)%nat -> (v < n)%nat -> qvalue n (at_quad u v (fun o => o + c) b) x = qvalue n b x + c * x u * x v.
Proof.
  intros Hu. induction n as [|n IH]; intros H; [lia|]. rewrite !qvalue_S. cbn [at_quad b_lin b_quad]. destruct (Nat.eq_dec v n) as [->|N].
  - rewrite (@qvalue_same n (at_quad u n (fun o => o + c) b) b x); [|reflexivity|]. 2:{ intros i j Hi Hj. cbn. unfold same_pair. destruct (Nat.eqb_spec n j), (Nat.eqb_spec n i); try lia. now rewrite !andb_false_r. }
    destruct (Nat.eq_dec u n) as [->|Nu].
    + unfold same_pair at 1. rewrite Nat.eqb_refl. cbn [andb orb].
      rewrite (sumn_ext n (fun j => (if same_pair n n n j then b_quad b n j + c else b_quad b n j) * x j) (fun j => b_quad b n j * x j)); [ring|]. intros j Hj. unfold same_pair. destruct (Nat.eqb_spec n j); [lia|]. now rewrite andb_false_r.
    + assert (E : same_pair u n n n = false) by (unfold same_pair; destruct (Nat.eqb_spec u n); [lia|reflexivity]). rewrite E.
      rewrite (sumn_ext n (fun j => (if same_pair u n n j then b_quad b n j + c else b_quad b n j) * x j) (fun j => QuadProofs2.upd (b_quad b n) u (b_quad b n u + c) j * x j)).
      * rewrite sumn_upd_l by lia. ring.
      * intros j Hj. unfold same_pair, QuadProofs2.upd. rewrite Nat.eqb_refl. destruct (Nat.eqb_spec u n); [lia|]. cbn [andb orb]. rewrite andb_true_r. destruct (Nat.eqb_spec u j), (Nat.eqb_spec j u); subst; try lia; reflexivity.
  - assert (E : forall j, (j <= n)%nat -> same_pair u v n j = false).
    { intros j Hj. unfold same_pair. destruct (Nat.eqb_spec u n); [lia|]. destruct (Nat.eqb_spec v n); [lia|]. now rewrite andb_false_r. }
    rewrite IH by lia. rewrite E by lia. rewrite (sumn_ext n (fun j => (if same_pair u v n j then b_quad b n j + c else b_quad b n j) * x j) (fun j => b_quad b n j * x j)); [ring|]. intros j Hj. now rewrite E by lia.
Qed.
Lemma quad_value n b x u v c : (u < n)%nat -> (v < n)%nat -> qvalue n (at_quad u v (fun o => o + c) b) x = qvalue n b x + c * x u * x v.
Proof.
  intros Hu Hv. destruct (Nat.le_gt_cases u v) as [H|H]; [now apply quad_value_le|]. rewrite (@qvalue_same n _ (at_quad v u (fun o => o + c) b) x); [|reflexivity|intros i j _ _; cbn; now rewrite same_pair_comm].
  rewrite quad_value_le by lia. ring.
Qed.

(** * Coordinates *)
Definition coord_op (logical : bool) (t : Z * Z * num) : qop := let '(u, v, b) := t in if logical && (u =? v)%Z then AddLin (Z.to_nat u) b else AddQuad (Z.to_nat u) (Z.to_nat v) b.
Definition coord_ops (logical : bool) (quad : list (Z * Z * num)) (lin : list num) : list qop :=
  map (fun i => AddLin i (nth i lin 0)) (seq 0 (length lin)) ++ map (coord_op logical) quad.
Lemma rfold_app {A C} (f : A -> C -> res A) a l k : rfold f a (l ++ k) = rbind (rfold f a l) (fun a => rfold f a k).
Proof. revert a. induction l as [|c l IH]; intros a; [reflexivity|]. cbn [app rfold]. destruct (f a c); cbn [rbind]; auto. Qed.
Lemma rfold_ext {A C D} (f : A -> C -> res A) (g : A -> D -> res A) (h : C -> D) : forall l, (forall c, In c l -> forall a, f a c = g a (h c)) -> forall a, rfold f a l = rfold g a (map h l).
Proof. induction l as [|c l IH]; intros H a; [reflexivity|]. cbn [map rfold]. rewrite (H c (or_introl eq_refl)). destruct (g a (h c)); cbn [rbind]; auto. apply IH. intros d Hd. apply H. now right. Qed.
Lemma from_coords_ops logical n quad lin : from_coords logical n quad lin = rbind (qm_new (Z.of_nat n)) (fun q => rfold run_qop q (coord_ops logical quad lin)).
Proof.
  unfold from_coords, coord_ops. destruct (qm_new (Z.of_nat n)) as [q| |]; try reflexivity. cbn [rbind]. rewrite rfold_app.
  rewrite (rfold_ext (fun q i => rbind (rget lin i) (fun b => add_linear q i b)) run_qop (fun i => AddLin i (nth i lin 0))).
  - destruct (rfold run_qop q _) as [q'| |]; try reflexivity. cbn [rbind]. apply rfold_ext. intros [[u v] b] _ a. cbn [coord_op]. now destruct (logical && (u =? v)%Z).
  - intros i Hi a. apply in_seq in Hi. unfold rget. destruct (nth_error lin i) as [b|] eqn:E; [|apply nth_error_None in E; lia]. cbn [rbind run_qop]. now rewrite (nth_error_nth _ _ 0 E).
Qed.
Definition in_coords (n : nat) (t : Z * Z * num) : Prop := (0 <= fst (fst t) < Z.of_nat n /\ 0 <= snd (fst t) < Z.of_nat n)%Z.
Lemma coord_ops_in logical n quad lin : (length lin <= n)%nat -> Forall (in_coords n) quad -> Forall (qop_in n) (coord_ops logical quad lin).
Proof.
  intros H F. apply Forall_app. split; apply Forall_map; [apply Forall_forall; intros i Hi; apply in_seq in Hi; cbn; lia|]. eapply Forall_impl; [|exact F]. intros [[u v] b] [H1 H2]. cbn in *. destruct (logical && (u =? v)%Z); cbn; lia.
Qed.
(** The polynomial. *)
Definition coords_value (quad : list (Z * Z * num)) (lin : list num) (x : nat -> num) : num :=
  qsum_of (map (fun i => nth i lin 0 * x i) (seq 0 (length lin))) + qsum_of (map (fun t => snd t * x (Z.to_nat (fst (fst t))) * x (Z.to_nat (snd (fst t)))) quad).
Lemma ops_value n x (f : qop -> num) : forall ops b, Forall (qop_in n) ops -> (forall o b, In o ops -> qop_in n o -> qvalue n (spec_qop n b o) x = qvalue n b x + f o) ->
  qvalue n (fold_left (spec_qop n) ops b) x = qvalue n b x + qsum_of (map f ops).
Proof.
  induction ops as [|o ops IH]; intros b F H; cbn [fold_left map qsum_of]; [ring|]. inversion F; subst. rewrite IH; [|assumption|intros; apply H; [now right|assumption]]. rewrite H; [ring|now left|assumption].
Qed.
Lemma no_value n x : qvalue n no_biases x = 0.
Proof.
  unfold qvalue, no_biases. cbn [b_lin b_quad]. rewrite (sumn_ext n (fun i => 0 * x i) (fun _ => 0)) by (intros; ring). rewrite sumn_zero. rewrite (sumn_ext n _ (fun _ => 0)); [rewrite sumn_zero; ring|]. intros i Hi. transitivity (sumn (S i) (fun _ => 0)); [|apply sumn_zero]. apply sumn_ext. intros; ring.
Qed.
Definition op_term (x : nat -> num) (o : qop) : num := match o with AddLin v c => c * x v | AddQuad u v c => c * x u * x v | _ => 0 end.
Lemma bit_square q : bit q -> q * q = q.
Proof. intros [->| ->]; ring. Qed.
Theorem coords_ok logical n quad lin : (length lin <= n)%nat -> Forall (in_coords n) quad ->
  exists q b, from_coords logical n quad lin = Ok q /\ qm_n q = n /\ rep q n b /\ (forall i j, b_quad b i j = b_quad b j i) /\
    (exists q0, qm_new (Z.of_nat n) = Ok q0 /\ Forall (qop_in n) (coord_ops logical quad lin) /\ rfold run_qop q0 (coord_ops logical quad lin) = Ok q) /\
    forall x, (logical = true -> forall i, (i < n)%nat -> bit (x i)) -> qvalue n b x = coords_value quad lin x.
Proof.
  intros Hl Hq. assert (exists q0, qm_new (Z.of_nat n) = Ok q0) as [q0 E0] by (unfold qm_new; destruct (Z.ltb_spec (Z.of_nat n) 0); [lia|eauto]). pose proof (@coord_ops_in logical n quad lin Hl Hq) as Hin. rewrite from_coords_ops, E0. cbn [rbind]. destruct (new_rep _ _ E0) as [R0 _]. rewrite Nat2Z.id in R0.
  destruct (@run_qops_ok _ _ _ _ R0 Hin) as (q & Eq & R). exists q, (fold_left (spec_qop n) (coord_ops logical quad lin) no_biases). split; [exact Eq|]. split; [exact (rp_n _ _ _ R)|]. split; [exact R|]. split; [apply spec_sym; reflexivity|].
  split; [exists q0; auto|]. intros x Hx. rewrite (@ops_value n x (op_term x)); [|exact Hin|].
  - rewrite no_value. unfold coord_ops, coords_value. rewrite map_app, qsum_app, !map_map. cbn [op_term]. rewrite Qcplus_0_l. f_equal. f_equal. apply map_ext_in. intros [[u v] b] Ht. rewrite Forall_forall in Hq. destruct (Hq _ Ht) as [H1 H2]. cbn [fst snd] in *. cbn [coord_op].
    destruct logical; cbn [andb]; [|reflexivity]. destruct (Z.eqb_spec u v) as [->|]; [|reflexivity]. cbn [op_term]. rewrite <- Qcmult_assoc, bit_square; [reflexivity|]. apply Hx; [reflexivity|lia].
  - intros o b Ho Hi. unfold coord_ops in Ho. apply in_app_or in Ho. destruct Ho as [Ho|Ho]; apply in_map_iff in Ho.
    + destruct Ho as (i & <- & _). cbn [spec_qop op_term]. now apply lin_value.
    + destruct Ho as ([[u v] c] & <- & _). cbn [coord_op] in *. destruct (logical && (u =? v)%Z); cbn [spec_qop op_term qop_in] in *; [now apply lin_value|now apply quad_value].
Qed.
