(** C27 n-ary operations. *)
From Verif Require Import Base SliceModel ShapeModel ShapeSpec StateDataModel StateDataSpec StateDataProofs Replay
  NodeSpec NodeLib BinaryModel NodeShape BinaryProofs Num NaryModel NarySpec NaryProofs.

Theorem C27_nary_node : forall o shapes s, Forall wf_shape shapes -> nary_new shapes = Ok s ->
  shapes = repeat s (length shapes) /\
  node_ok qeqb (array_node 0%Qc s shapes (nary_init (nop_func o)) (nary_prop qeqb (nop_func o) (nop_inv o)))
    (nary_fun (nop_func o) (length shapes)).
Proof.
  intros o shapes s W H. destruct (nary_new_inv _ _ H) as [N F].
  assert (E : shapes = repeat s (length shapes)).
  { clear - F. induction F as [|x l [-> _] F IH]; [reflexivity|]. cbn [length repeat]. congruence. }
  split; [exact E|].
  assert (Ws : wf_shape s /\ dynamic s = false).
  { inversion F as [|x l [-> G] F' E1]; [congruence|]. subst shapes. inversion W as [|x1 y1 Ws W']; subst x1 y1. split; [exact Ws|].
    pose proof (size_neg s Ws) as SN. destruct (Z.ltb_spec (shape_to_size s) 0); [lia|congruence]. }
  rewrite E at 1. apply nary_ok; try apply Ws.
  - exact qeqb_spec.
  - destruct shapes; [congruence|cbn; lia].
  - apply nop_inv_ok.
Qed.
Print Assumptions C27_nary_node.

(** What the value is: at every position the sum, product, maximum or minimum of the operands there. *)
Theorem C27_nary_value : forall o ins v i col, nary_fun (nop_func o) (length ins) ins = Some v ->
  map (fun a => nth_error a i) ins = map Some col ->
  exists x, nth_error v i = Some x /\
    match o with
    | NAdd => x = qsum_of col | NMul => x = qprod_of col | NMax => is_max x col | NMin => is_min x col
    end.
Proof.
  intros o ins v i col H C. pose proof H as H0. unfold nary_fun in H. destruct ins as [|a rest]; [discriminate|].
  rewrite Nat.eqb_refl in H. cbn [andb] in H. destruct (forallb _ rest) eqn:F; [|discriminate]. clear H.
  rewrite forallb_forall in F.
  assert (FL : Forall (fun b => length b = length a) (a :: rest)).
  { constructor; [reflexivity|]. apply Forall_forall. intros b Hb. apply Nat.eqb_eq. auto. }
  destruct (nary_fun_inv _ _ _ _ _ H0 FL) as [_ [L N]].
  assert (Col : column (a :: rest) i = Some col) by (unfold column; rewrite C; apply all_some_map).
  assert (Li : i < length a).
  { destruct col as [|x col]; [discriminate|]. cbn [map] in C. apply nth_error_Some. congruence. }
  assert (Nc : col <> []) by (destruct col; [discriminate|discriminate]).
  rewrite (N i Li). unfold nary_at. rewrite Col.
  destruct o; cbn [nop_func].
  - destruct (nary_reduce qmax col) as [x|] eqn:E; [|destruct col; [congruence|discriminate]].
    exists x. split; [reflexivity|]. now apply reduce_max.
  - destruct (nary_reduce qmin col) as [x|] eqn:E; [|destruct col; [congruence|discriminate]].
    exists x. split; [reflexivity|]. now apply reduce_min.
  - exists (qprod_of col). split; [now apply reduce_mult|reflexivity].
  - exists (qsum_of col). split; [now apply reduce_plus|reflexivity].
Qed.
Print Assumptions C27_nary_value.

(** Exactly the nonempty families of fixed-size arrays of one shape are accepted, and they have a value. *)
Theorem C27_nary_accepts : forall s shapes, Forall wf_shape shapes ->
  (nary_new shapes = Ok s <-> shapes <> [] /\ dynamic s = false /\ Forall (fun t => t = s) shapes).
Proof.
  intros s shapes W. split.
  - intros H. destruct (nary_new_inv _ _ H) as [N F]. split; [exact N|]. split.
    + inversion F as [|x l [-> G] F' E1]; [congruence|]. subst shapes. inversion W as [|x1 y1 Ws W']; subst x1 y1.
      pose proof (size_neg s Ws) as SN. destruct (Z.ltb_spec (shape_to_size s) 0); [lia|congruence].
    + eapply Forall_impl; [|exact F]. cbn beta. tauto.
  - intros [N [D F]]. unfold nary_new. destruct shapes as [|t shapes]; [congruence|].
    assert (t = s) by now inversion F. subst t.
    rewrite Forall_forall in F, W.
    assert (E1 : existsb (fun t => (shape_to_size t <? 0)%Z) (s :: shapes) = false).
    { apply not_true_iff_false. intros E. apply existsb_exists in E. destruct E as [t [Ht E]].
      rewrite (size_neg t (W t Ht)), (F t Ht) in E. congruence. }
    rewrite E1. replace (forallb _ _) with true; [reflexivity|]. symmetry. apply forallb_forall.
    intros t Ht. rewrite (F t Ht). now destruct (zlist_eqb_spec s s).
Qed.
Print Assumptions C27_nary_accepts.

Theorem C27_nary_total : forall o s shapes ins, nary_new shapes = Ok s -> Forall wf_shape shapes ->
  Forall2 fits shapes ins -> nary_fun (nop_func o) (length shapes) ins <> None.
Proof.
  intros o s shapes ins H W F. destruct (proj1 (C27_nary_accepts s shapes W) H) as [N [D E]].
  assert (G : Forall (fun v => Z.of_nat (length v) = prod s) ins /\ length ins = length shapes).
  { clear - F E D. induction F as [|t a shapes ins Hf F IH]; [split; auto|]. inversion E; subst. destruct IH as [A B]; auto.
    split; [|cbn; lia]. constructor; auto. unfold fits, fits_len in Hf. now rewrite D in Hf. }
  destruct G as [G L]. unfold nary_fun. destruct ins as [|a ins]; [destruct shapes; [congruence|discriminate]|].
  rewrite L, Nat.eqb_refl. cbn [andb]. replace (forallb _ ins) with true; [discriminate|]. symmetry.
  apply forallb_forall. intros b Hb. apply Nat.eqb_eq. rewrite Forall_forall in G.
  pose proof (G a (or_introl eq_refl)). pose proof (G b (or_intror Hb)). lia.
Qed.
Print Assumptions C27_nary_total.

(** A product of three operands (the first two the same array); a zero appears and disappears. *)
Example C27_example :
  nary_new [[2]; [2]; [2]]%Z = Ok [2]%Z /\
  (exists d, nary_prop qeqb (nop_func NMul) (nop_inv NMul) (a_init [zq 0; zq 18])
     [Pin [zq 2; zq 3] [change 0 (zq 0) (zq 2)] 0; Pin [zq 2; zq 3] [change 0 (zq 0) (zq 2)] 0;
      Pin [zq 5; zq 0] [change 1 (zq 2) (zq 0); change 0 (zq 4) (zq 5)] 0] = Ok d /\
     abuf d = [zq 20; zq 0]) /\
  (exists d, nary_prop qeqb (nop_func NMax) (nop_inv NMax) (a_init [zq 4; zq 3])
     [Pin [zq 1; zq 3] [change 0 (zq 4) (zq 1)] 0; still [zq 2; zq 2]] = Ok d /\
     abuf d = [zq 2; zq 3] /\ aupd d = [change 0 (zq 4) (zq 2)]).
Proof.
  split; [reflexivity|]. split.
  - eexists. split; [vm_compute; reflexivity|]. cbn [abuf]. repeat (f_equal; try (apply Qc_is_canon; reflexivity)).
  - eexists. split; [vm_compute; reflexivity|]. cbn [abuf aupd]. split; reflexivity.
Qed.
