(** C31 concatenation. *)
From Verif Require Import Base SliceModel ShapeModel ShapeSpec ShapeProofs StateDataModel StateDataSpec StateDataProofs Replay
  NodeSpec NodeLib BinaryModel NodeShape ConcatModel ConcatSpec ConcatProofs ConcatProofs2.

(** Exactly the joinable static shapes are accepted, and the result has the joined shape. *)
Theorem C31_accepts : forall shapes axis out, Forall wf_shape shapes ->
  (conc_new shapes axis = Ok out <->
   (0 <= axis)%Z /\ joinable (Z.to_nat axis) shapes /\ Forall (fun s => dynamic s = false) shapes /\
   joined (Z.to_nat axis) shapes out).
Proof. exact conc_new_spec. Qed.
Print Assumptions C31_accepts.

(** Initialisation puts every element at its place. *)
Theorem C31_initial : forall (V : Type) (vzero : V) shapes axis out ops, Forall wf_shape shapes ->
  conc_new shapes axis = Ok out -> (prod out < 2147483648)%Z -> Forall2 fits shapes ops ->
  exists v, conc_init vzero out shapes (Z.to_nat axis) (map still ops) = Ok (a_init v) /\
    concatenated (Z.to_nat axis) shapes out ops v.
Proof.
  intros V vzero shapes axis out ops W H Hb F. apply conc_new_spec in H; [|exact W]. destruct H as (A0 & Jb & St & Jd).
  set (ax := Z.to_nat axis) in *.
  destruct (frame_ex ax shapes out W Jb St Jd) as (s1 & s2 & A & B & ds & Fr).
  assert (So : Z.to_nat (shape_to_size out) = A * nsum ds * B).
  { pose proof (mk_prod ax shapes out s1 s2 A B ds Fr (nsum ds)) as P. rewrite <- (fr_out _ _ _ _ _ _ _ _ Fr) in P.
    assert (Wo : wf_shape out /\ dynamic out = false).
    { now apply (frame_wf ax shapes out s1 s2 A B ds Fr W St Jb). }
    rewrite static_size by tauto. rewrite P. apply Nat2Z.id. }
  unfold conc_init. rewrite So.
  destruct (init_loop s1 s2 A B (nsum ds) (fr_s2 _ _ _ _ _ _ _ _ Fr) (fr_A _ _ _ _ _ _ _ _ Fr) (fr_B _ _ _ _ _ _ _ _ Fr) (fr_s1 _ _ _ _ _ _ _ _ Fr)
     ds 0 (conc_starts ax 0 shapes) (map still ops) (repeat vzero (A * nsum ds * B))) as (v & E & L & G & _).
  - lia.
  - rewrite (fr_shapes _ _ _ _ _ _ _ _ Fr). apply (starts_good ax shapes out s1 s2 A B ds Fr W); [apply incl_refl|now right].
  - rewrite (fr_shapes _ _ _ _ _ _ _ _ Fr) in F. clear - F Fr.
    assert (X : forall t (ls : list (list V)), Forall2 fits (map (ConcatProofs.mk s1 s2) t) ls ->
       Forall2 (fun d p => length (pview p) = A * d * B) t (map still ls)).
    { induction t as [|d t IH]; intros ls G; inversion G as [|? ? ? ? Ha Hb]; [constructor|]. cbn [map].
      constructor; [cbn [pview still]; apply (mk_fits ax shapes out s1 s2 A B ds Fr); exact Ha|auto]. }
    now apply X.
  - apply repeat_length.
  - exists v. rewrite <- (fr_out _ _ _ _ _ _ _ _ Fr), <- (fr_shapes _ _ _ _ _ _ _ _ Fr) in E. rewrite E. split; [reflexivity|].
    apply (concatenated_goods ax shapes out s1 s2 A B ds Fr ops v F). rewrite map_map in G.
    rewrite (map_ext (fun x => pview (still x)) (fun x => x)), map_id in G by reflexivity. auto.
Qed.
Print Assumptions C31_initial.

(** The elements and their places determine the result. *)
Theorem C31_unique : forall (V : Type) shapes axis out (ops : list (list V)) v v', Forall wf_shape shapes ->
  conc_new shapes axis = Ok out -> Forall2 fits shapes ops ->
  concatenated (Z.to_nat axis) shapes out ops v -> concatenated (Z.to_nat axis) shapes out ops v' -> v = v'.
Proof.
  intros V shapes axis out ops v v' W H F C C'. apply conc_new_spec in H; [|exact W]. destruct H as (A0 & Jb & St & Jd).
  destruct (frame_ex _ shapes out W Jb St Jd) as (s1 & s2 & A & B & ds & Fr).
  apply (concatenated_goods _ _ _ _ _ _ _ _ Fr ops v F) in C. apply (concatenated_goods _ _ _ _ _ _ _ _ Fr ops v' F) in C'.
  apply (goods_unique A (nsum ds) B ds ops); tauto.
Qed.
Print Assumptions C31_unique.

(** Propagation is defined (its assertions hold too), leaves the right contents, and the recorded
    positions and new values are right; committing then reaches the state of a fresh initialisation.
    If only the first element of each operand changes, the recorded old values are right as well, and
    reverting restores the previous contents. *)
Theorem C31_moves : forall (V : Type) (veqb : V -> V -> bool) (vpad : V) dbg shapes axis out olds pins v,
  (forall x y, reflect (x = y) (veqb x y)) -> Forall wf_shape shapes ->
  conc_new shapes axis = Ok out -> length olds = length shapes ->
  Forall2 (fun si p => pin_ok veqb (fst si) (snd si) p) (combine shapes olds) pins ->
  concatenated (Z.to_nat axis) shapes out olds v ->
  exists d', conc_prop veqb dbg out shapes (Z.to_nat axis) (a_init v) pins = Ok d' /\
    concatenated (Z.to_nat axis) shapes out (map pview pins) (abuf d') /\
    a_commit d' = a_init (abuf d') /\
    Forall is_change (aupd d') /\ rewrite_with v (aupd d') = Some (abuf d') /\
    (Forall (fun p => Forall (fun u => uidx u = 0) (pdiff p)) pins ->
     replay veqb v (aupd d') = Some (abuf d') /\ a_revert vpad d' = Some (a_init v)).
Proof.
  intros V veqb vpad dbg shapes axis out olds pins v spec W H Lo Fp C.
  apply conc_new_spec in H; [|exact W]. destruct H as (A0 & Jb & St & Jd). set (ax := Z.to_nat axis) in *.
  destruct (frame_ex ax shapes out W Jb St Jd) as (s1 & s2 & A & B & ds & Fr).
  assert (X : Forall2 fits shapes olds /\ Forall2 fits shapes (map pview pins) /\
     Forall2 (fun old p => replay veqb old (pdiff p) = Some (pview p) /\ Forall is_change (pdiff p)) olds pins).
  { clear - Fp Lo St. revert olds pins Lo Fp. induction St as [|s t Ds St IH]; intros [|o olds] pins Lo Fp; try discriminate Lo.
    - cbn [combine] in Fp. inversion Fp; subst. repeat constructor.
    - cbn [combine] in Fp. inversion Fp as [|? p ? ps [P1 P2 P3 P4 P5] Fp']; subst. cbn [fst snd] in *.
      destruct (IH olds ps ltac:(cbn in Lo; lia) Fp') as (Ha & Hb & Hc). cbn [map]. repeat split; constructor; auto. }
  destruct X as (Fo & Fn & Fr').
  apply (concatenated_goods _ _ _ _ _ _ _ _ Fr olds v Fo) in C. destruct C as [Lv Gv].
  destruct (prop_loop veqb spec dbg s1 s2 A B (nsum ds) (fr_s2 _ _ _ _ _ _ _ _ Fr) (fr_A _ _ _ _ _ _ _ _ Fr) (fr_B _ _ _ _ _ _ _ _ Fr)
     (fr_s1 _ _ _ _ _ _ _ _ Fr) ds 0 (conc_starts ax 0 shapes) pins olds (a_init v)) as (d' & E & G & L & _ & nu & A' & _ & F' & Rw & Rp); auto.
  - rewrite (fr_shapes _ _ _ _ _ _ _ _ Fr). apply (starts_good ax shapes out s1 s2 A B ds Fr W); [apply incl_refl|now right].
  - rewrite <- (fr_out _ _ _ _ _ _ _ _ Fr), <- (fr_shapes _ _ _ _ _ _ _ _ Fr) in E.
    exists d'. split; [exact E|]. cbn [a_init abuf aupd app] in A', Rw, Rp, L. subst nu.
    split; [apply (concatenated_goods _ _ _ _ _ _ _ _ Fr _ _ Fn); split; [congruence|exact G]|].
    split; [reflexivity|]. split; [exact F'|]. split; [exact Rw|]. intros F0.
    assert (R : replay veqb v (aupd d') = Some (abuf d')).
    { apply Rp. clear - F0. induction F0; cbn [map concat]; [constructor|]. apply Forall_app. auto. }
    split; [exact R|]. apply (revert_replay veqb spec vpad v d'); [|exact R].
    assert (Ap : forall ts (d0 d1 : @adata V), rfold (fun d p => rfold (conc_step veqb dbg out (snd (fst p)) (fst (fst p))) d (pdiff (snd p))) d0 ts = Ok d1 ->
       aprev d1 = aprev d0).
    { induction ts as [|p ts IH]; intros d0 d1 Ed; cbn [rfold] in Ed; [congruence|].
      destruct (rfold (conc_step veqb dbg out (snd (fst p)) (fst (fst p))) d0 (pdiff (snd p))) as [d2| |] eqn:E2; cbn [rbind] in Ed; try discriminate.
      rewrite (IH _ _ Ed). clear - E2. revert d0 E2. induction (pdiff (snd p)) as [|u us IH]; intros d0 E2; cbn [rfold] in E2; [congruence|].
      destruct (conc_step veqb dbg out (snd (fst p)) (fst (fst p)) d0 u) as [d3| |] eqn:E3; cbn [rbind] in E2; try discriminate.
      rewrite (IH _ E2). unfold conc_step in E3. destruct (it_add _ _); [|discriminate]. destruct (_ <? _)%Z; [discriminate|].
      destruct (nth_error _ _); [|discriminate]. destruct (nth_error _ _); [|discriminate]. destruct (uval u); [|discriminate].
      destruct (_ && _); [discriminate|]. injection E3 as <-. reflexivity. }
    rewrite (Ap _ _ _ E). reflexivity.
Qed.
Print Assumptions C31_moves.

(** In general the recorded old values are wrong: replaying the reported updates fails, and reverting
    leaves contents that are not the concatenation of the committed operands. *)
Theorem C31_replay_refuted : exists shapes axis out olds pins v d',
  Forall wf_shape shapes /\ conc_new shapes axis = Ok out /\
  Forall2 (fun si p => pin_ok Z.eqb (fst si) (snd si) p) (combine shapes olds) pins /\
  conc_init 0%Z out shapes (Z.to_nat axis) (map still olds) = Ok (a_init v) /\
  conc_prop Z.eqb true out shapes (Z.to_nat axis) (a_init v) pins = Ok d' /\
  replay Z.eqb v (aupd d') = None /\ a_revert 0%Z d' <> Some (a_init v).
Proof.
  exists [[2]; [2]]%Z, 0%Z, [4]%Z, [[1; 2]; [3; 4]]%Z,
    [still [1; 2]%Z; Pin [3; 5]%Z [change 1 4%Z 5%Z] 0%Z], [1; 2; 3; 4]%Z. eexists.
  split; [repeat constructor; cbn; lia|]. split; [reflexivity|].
  split; [repeat constructor; cbn; try discriminate; try lia; reflexivity|].
  split; [vm_compute; reflexivity|]. split; [vm_compute; reflexivity|].
  split; [vm_compute; reflexivity|]. vm_compute. discriminate.
Qed.
Print Assumptions C31_replay_refuted.

(** Two operands of shapes (2,1) and (2,2) along axis 1. *)
Example C31_example : conc_new [[2; 1]; [2; 2]]%Z 1 = Ok [2; 3]%Z /\
  conc_init 0%Z [2; 3]%Z [[2; 1]; [2; 2]]%Z 1 (map still [[1; 2]; [3; 4; 5; 6]]%Z) = Ok (a_init [1; 3; 4; 2; 5; 6]%Z) /\
  exists d', conc_prop Z.eqb true [2; 3]%Z [[2; 1]; [2; 2]]%Z 1 (a_init [1; 3; 4; 2; 5; 6]%Z)
    [Pin [7; 2]%Z [change 0 1%Z 7%Z] 0%Z; Pin [3; 4; 5; 8]%Z [change 3 6%Z 8%Z] 0%Z] = Ok d' /\
    abuf d' = [7; 3; 4; 2; 5; 8]%Z.
Proof. split; [reflexivity|]. split; [vm_compute; reflexivity|]. eexists. split; vm_compute; reflexivity. Qed.
