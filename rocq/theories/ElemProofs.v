From Verif Require Import Base SliceModel ShapeModel ShapeSpec ShapeProofs StateDataModel StateDataSpec StateDataProofs
  Replay NodeSpec NodeLib BinaryModel BinarySpec NodeShape BinaryProofs ElemModel ElemSpec.

Lemma sort_unique_in l i : In i (sort_unique l) <-> In i l.
Proof.
  unfold sort_unique. induction l as [|x l IH]; cbn [fold_right]; [tauto|].
  assert (J : forall m, In i (insert_nodup x m) <-> i = x \/ In i m).
  { induction m as [|y m IHm]; cbn [insert_nodup]; [cbn; intuition congruence|].
    destruct (x <? y); [cbn; intuition congruence|]. destruct (Nat.eqb_spec x y) as [->|]; [cbn; intuition congruence|].
    cbn [In]. rewrite IHm. intuition congruence. }
  rewrite J, IH. cbn. intuition congruence.
Qed.

Section EP.
Context {V : Type} {veqb : V -> V -> bool}.
Variable vpad : V.
Variable spec : forall x y, reflect (x = y) (veqb x y).
Notation Inv := (Inv veqb).

(** * Unary *)
Section U.
Variable f : V -> V.

Lemma a_set_ok (c : list V) d i v : Inv c d -> i < length (abuf d) ->
  exists d', lift_update (a_set veqb d i v) = Ok d' /\ Inv c d' /\ abuf d' = lset i v (abuf d) /\
    (Forall is_change (aupd d) -> Forall is_change (aupd d')).
Proof.
  intros I L. unfold a_set. destruct (nth_error (abuf d) i) as [old|] eqn:E; [|apply nth_error_None in E; lia].
  destruct (spec old v) as [->|N]; cbn [lift_update].
  - exists d. rewrite (lset_same _ _ E). auto.
  - eexists. split; [reflexivity|]. split; [|split; [reflexivity|]].
    + apply (Inv_snoc c d (change i old v)); [exact I|]. now apply rp_change.
    + intros H. cbn [aupd]. apply Forall_app. split; [exact H|]. constructor; [split; discriminate|constructor].
Qed.

Lemma a_push_ok (c : list V) d v : Inv c d -> Inv c (fst (a_push d v)) /\ abuf (fst (a_push d v)) = abuf d ++ [v].
Proof.
  intros I. split; [|reflexivity]. cbn [a_push fst]. apply (Inv_snoc c d (placement (length (abuf d)) v)); [exact I|]. now apply rp_place.
Qed.

Lemma a_pop_ok (c : list V) d l x : Inv c d -> abuf d = l ++ [x] ->
  exists d', lift_update (a_pop d) = Ok d' /\ Inv c d' /\ abuf d' = l.
Proof.
  intros I E. unfold a_pop. rewrite E, app_length. cbn [length]. rewrite Nat.add_sub.
  rewrite nth_error_app2 by lia. rewrite Nat.sub_diag. cbn [nth_error lift_update].
  rewrite firstn_app, firstn_all, Nat.sub_diag. cbn [firstn]. rewrite app_nil_r.
  eexists. split; [reflexivity|]. split; [|reflexivity].
  apply (Inv_snoc c d (removal (length l) x)); [exact I|]. rewrite E. now apply rp_remove.
Qed.

Lemma un_loop (c : list V) us : forall l l1 d, replay veqb l us = Some l1 -> Inv c d -> abuf d = map f l ->
  exists d', rfold (un_step veqb f) d us = Ok d' /\ Inv c d' /\ abuf d' = map f l1 /\
    (Forall is_change us -> Forall is_change (aupd d) -> Forall is_change (aupd d')).
Proof.
  induction us as [|u us IH]; intros l l1 d H I B.
  - rewrite rp_nil in H. injection H as <-. exists d. repeat split; auto; apply I.
  - destruct (rp_cons_inv _ _ _ _ H) as [l0 [H1 H2]]. cbn [rfold].
    assert (S : exists d1, un_step veqb f d u = Ok d1 /\ Inv c d1 /\ abuf d1 = map f l0 /\
       (is_change u -> Forall is_change (aupd d) -> Forall is_change (aupd d1))).
    { apply (rp1_inv spec) in H1. destruct H1 as [o v Eu En El|v Eu El|o Eu El].
      - rewrite Eu. unfold un_step. cbn [placed change uold uval uidx]. pose proof (nth_error_lt _ _ En).
        destruct (a_set_ok c d (uidx u) (f v) I) as [d1 [S1 [S2 [S3 S4]]]]; [rewrite B, map_length; lia|].
        exists d1. split; [exact S1|]. split; [exact S2|]. split; [rewrite S3, B, El; symmetry; apply map_lset|auto].
      - rewrite Eu. unfold un_step. cbn [placed placement uold uval uidx]. rewrite B, map_length, Nat.eqb_refl.
        destruct (a_push_ok c d (f v) I) as [P1 P2].
        eexists. split; [reflexivity|]. split; [exact P1|]. split; [rewrite P2, B, El, map_app; reflexivity|].
        intros [X _]. cbn in X. congruence.
      - rewrite Eu. unfold un_step. cbn [placed removal uold uval uidx]. rewrite El, map_app in B. cbn [map] in B.
        rewrite B, app_length, map_length. cbn [length]. rewrite Nat.add_1_r, Nat.eqb_refl.
        destruct (a_pop_ok c d _ _ I B) as [d1 [P1 [P2 P3]]]. exists d1. split; [exact P1|]. split; [exact P2|].
        split; [exact P3|]. intros [_ X]. cbn in X. congruence. }
    destruct S as [d1 [S1 [S2 [S3 S4]]]]. rewrite S1. cbn [rbind].
    destruct (IH l0 l1 d1 H2 S2 S3) as [d' [R1 [R2 [R3 R4]]]].
    exists d'. split; [exact R1|]. split; [exact R2|]. split; [exact R3|]. intros HC. inversion HC; subst. auto.
Qed.

Theorem unary_ok s : node_ok veqb (array_node vpad s [s] (un_init f) (un_prop veqb f)) (un_fun f).
Proof.
  apply array_node_ok; [exact spec| |].
  - intros ins v Hf HF. destruct ins as [|a [|b ins]]; try discriminate. cbn in HF. injection HF as <-.
    inversion Hf; subst. split; [|reflexivity]. unfold fits in *. now rewrite map_length.
  - intros ins v pins v' L HF HP HF'. destruct ins as [|a [|b ins]]; try discriminate.
    unfold pins_ok in HP. cbn [combine] in HP. inversion HP as [|x1 p x3 x4 Pl HP1]; subst. inversion HP1; subst.
    cbn [fst snd map un_fun] in *. injection HF as <-. injection HF' as <-. destruct Pl as [p1 p2 p3 p4 p5].
    cbn [un_prop]. destruct (un_loop (map f a) (pdiff p) a (pview p) (a_init (map f a)) p3 (Inv_init veqb _) eq_refl) as [d' [R1 [R2 [R3 R4]]]].
    exists d'. split; [exact R1|]. split; [exact R2|]. split; [exact R3|]. intros D. apply R4; [auto|constructor].
Qed.
End U.

(** * Where *)
Section W.
Variable truth : V -> bool.

Lemma where_zip_ok c : forall x y, length c = length x -> length c = length y ->
  where_zip truth c x y = Ok (map (fun p => if truth (fst p) then fst (snd p) else snd (snd p)) (combine c (combine x y))).
Proof.
  induction c as [|a c IH]; intros [|b x] [|d y] L1 L2; try discriminate; [reflexivity|].
  cbn [where_zip combine map fst snd]. rewrite IH by (cbn in *; lia). reflexivity.
Qed.

Lemma where_nth (c x y : list V) i :
  nth_error (map (fun p => if truth (fst p) then fst (snd p) else snd (snd p)) (combine c (combine x y))) i =
  match nth_error c i, nth_error x i, nth_error y i with
  | Some a, Some b, Some d => Some (if truth a then b else d) | _, _, _ => None end.
Proof.
  rewrite nth_error_map, !nth_combine.
  destruct (nth_error c i), (nth_error x i), (nth_error y i); reflexivity.
Qed.

Lemma flipped_from us : forall b0 (c c' : V), replay veqb [c] us = Some [c'] -> Forall is_change us ->
  fold_left (fun flip u => if xorb (obool truth (uold u)) (obool truth (uval u)) then negb flip else flip) us b0
  = xorb b0 (xorb (truth c) (truth c')).
Proof.
  induction us as [|u us IH]; intros b0 c c' H HC.
  - rewrite rp_nil in H. injection H as <-. now rewrite xorb_nilpotent, xorb_false_r.
  - destruct (rp_cons_inv _ _ _ _ H) as [l0 [H1 H2]]. inversion HC as [|x y [C1 C2] HC']; subst.
    apply (rp1_inv spec) in H1. cbn [fold_left]. destruct H1 as [o v Eu En El|v Eu El|o Eu El].
    + pose proof (nth_error_lt _ _ En) as LT. cbn in LT. assert (Z0 : uidx u = 0) by lia. rewrite Z0 in *. cbn in En, El.
      injection En as ->. subst l0. rewrite Eu. cbn [change uold uval obool].
      rewrite (IH _ v c' H2 HC'). destruct b0, (truth o), (truth v), (truth c'); reflexivity.
    + rewrite Eu in C1. cbn in C1. congruence.
    + rewrite Eu in C2. cbn in C2. congruence.
Qed.

Lemma existsb_changes (us : list (update V)) : Forall is_change us -> existsb (fun u => placed u || removed u) us = false.
Proof.
  intros H. induction H as [|u us [A B] H IH]; [reflexivity|]. cbn [existsb]. rewrite IH. unfold placed, removed.
  destruct (uold u), (uval u); try congruence. reflexivity.
Qed.

Definition where_node (cs xs : list Z) : node V :=
  array_node_gen vpad (where_out xs) xs [cs; xs; xs] (where_init truth cs) (where_prop veqb truth cs).

Theorem where_ok cs xs ys s : wf_shape cs -> wf_shape xs -> where_new cs xs ys = Ok s ->
  ys = xs /\ s = xs /\ node_ok veqb (where_node cs xs) (where_fun truth cs).
Proof.
  intros Wc Wx H. unfold where_new in H. destruct (zlist_eqb_spec xs ys) as [<-|]; [|discriminate].
  rewrite (size_is_one cs Wc), (size_neg cs Wc) in H.
  assert (Cs : s = xs /\ (single cs = true \/ (single cs = false /\ cs = xs /\ dynamic cs = false))).
  { destruct (single cs); [split; [congruence|auto]|]. destruct (zlist_eqb_spec cs xs) as [->|]; [|discriminate].
    destruct (dynamic xs); [discriminate|]. split; [congruence|auto]. }
  destruct Cs as [-> Cs]. split; [reflexivity|]. split; [reflexivity|]. clear H.
  apply array_node_gen_ok; [exact spec| | |].
  - intros v d I F1 F2. unfold where_out, aout. f_equal. rewrite (size_neg xs Wx). destruct (dynamic xs) eqn:D; [reflexivity|].
    unfold fits, fits_len in *. rewrite D in *. unfold a_size_diff. destruct I as [I1 _]. rewrite I1. lia.
  - intros ins v Hf HF. destruct ins as [|c [|x [|y [|z ins]]]]; try discriminate. cbn [where_fun] in HF.
    inversion Hf as [|x1 x2 x3 x4 Fc Hf1]; subst. inversion Hf1 as [|x1 x2 x3 x4 Fx Hf2]; subst.
    inversion Hf2 as [|x1 x2 x3 x4 Fy Hf3]; subst. clear Hf Hf1 Hf2 Hf3.
    cbn [map still where_init pview]. rewrite (size_is_one cs Wc). destruct (single cs) eqn:S; cbn [negb].
    + destruct c as [|b [|b' c]]; try discriminate. assert (E : v = if truth b then x else y) by congruence. subst v.
      split; [destruct (truth b); assumption|reflexivity].
    + destruct Cs as [Cs|[_ [-> D]]]; [discriminate|].
      destruct (Nat.eqb_spec (length c) (length x)) as [L1|]; [|discriminate].
      destruct (Nat.eqb_spec (length c) (length y)) as [L2|]; [|discriminate]. cbn [andb] in HF.
      assert (E : v = map (fun p => if truth (fst p) then fst (snd p) else snd (snd p)) (combine c (combine x y))) by congruence.
      subst v. split; [|rewrite where_zip_ok by assumption; reflexivity].
      unfold fits in *. rewrite map_length, !combine_length. rewrite <- L1, <- L2, !Nat.min_id. exact Fc.
  - intros ins v pins v' L HF HP HF'. destruct ins as [|c [|x [|y [|z ins]]]]; try discriminate. cbn [where_fun] in HF.
    unfold pins_ok in HP. cbn [combine] in HP. inversion HP as [|x1 pc x3 x4 Pc HP1]; subst.
    inversion HP1 as [|x1 px x3 x5 Px HP2]; subst. inversion HP2 as [|x1 py x3 x6 Py HP3]; subst. inversion HP3; subst.
    clear HP HP1 HP2 HP3. cbn [fst snd] in *. cbn [map where_fun] in HF'.
    destruct Pc as [c1 c2 c3 c4 c5]. destruct Px as [p1 p2 p3 p4 p5]. destruct Py as [q1 q2 q3 q4 q5].
    cbn [where_prop]. rewrite (size_is_one cs Wc). destruct (single cs) eqn:S; cbn [negb].
    + destruct c as [|b [|b1 c]]; try discriminate. destruct (pview pc) as [|b' [|b1' c']] eqn:Ec; try discriminate.
      assert (E : v = if truth b then x else y) by congruence. assert (E' : v' = if truth b' then pview px else pview py) by congruence.
      subst v v'. unfold flipped. rewrite (flipped_from _ false b b' c3 (c5 (single_not_dynamic _ S))), xorb_false_l.
      destruct (xorb (truth b) (truth b')) eqn:X.
      * destruct (assign_step vpad spec (if truth b then x else y) (if truth b' then pview px else pview py) xs) as [d' [A1 [A2 [A3 A4]]]].
        { intros D. unfold fits, fits_len in *. rewrite D in *. destruct (truth b), (truth b'); lia. }
        exists d'. rewrite A1. auto.
      * assert (Tb : truth b = truth b') by (destruct (truth b), (truth b'); auto; discriminate). rewrite Tb.
        destruct (truth b').
        -- pose proof (update_step vpad spec xs (fun _ z => z) x (pview px) (pdiff px) p3 p5) as U.
           rewrite !mapi_map, !map_id in U. rewrite (map_ext _ (fun u => u)), map_id in U; [exact U|].
           intros u. destruct u as [i o [w|]]; reflexivity.
        -- pose proof (update_step vpad spec xs (fun _ z => z) y (pview py) (pdiff py) q3 q5) as U.
           rewrite !mapi_map, !map_id in U. rewrite (map_ext _ (fun u => u)), map_id in U; [exact U|].
           intros u. destruct u as [i o [w|]]; reflexivity.
    + destruct Cs as [Cs|[_ [-> D]]]; [discriminate|]. specialize (c5 D). specialize (p5 D). specialize (q5 D).
      destruct (Nat.eqb_spec (length c) (length x)) as [L1|]; [|discriminate].
      destruct (Nat.eqb_spec (length c) (length y)) as [L2|]; [|discriminate]. cbn [andb] in HF.
      destruct (Nat.eqb_spec (length (pview pc)) (length (pview px))) as [L1'|]; [|discriminate].
      destruct (Nat.eqb_spec (length (pview pc)) (length (pview py))) as [L2'|]; [|discriminate]. cbn [andb] in HF'.
      set (W := fun c x y : list V => map (fun p => if truth (fst p) then fst (snd p) else snd (snd p)) (combine c (combine x y))) in *.
      assert (E : v = W c x y) by (unfold W; congruence). assert (E' : v' = W (pview pc) (pview px) (pview py)) by (unfold W; congruence).
      subst v v'. rewrite existsb_changes by (repeat (apply Forall_app; split); assumption).
      destruct (replay_changes_length spec _ _ _ c3 c5) as [Lc Ic]. destruct (replay_changes_length spec _ _ _ p3 p5) as [Lx Ix].
      destruct (replay_changes_length spec _ _ _ q3 q5) as [Ly Iy].
      set (f := fun i => match nth_error (pview pc) i, nth_error (pview px) i, nth_error (pview py) i with
        | Some a, Some b, Some d => Some (if truth a then b else d) | _, _, _ => None end).
      assert (LW : length (W c x y) = length c) by (unfold W; rewrite map_length, !combine_length; lia).
      destruct (recompute_loop spec (W c x y) (where_step veqb truth (pview pc) (pview px) (pview py)) f
        (sort_unique (map (@uidx V) (pdiff pc ++ pdiff px ++ pdiff py)))) with (d := a_init (W c x y)) as [d' [R1 [R2 [R3 [R4 R5]]]]].
      * intros d i w old N F. unfold f in F. unfold where_step. rewrite N.
        destruct (nth_error (pview pc) i), (nth_error (pview px) i), (nth_error (pview py) i); try discriminate.
        injection F as F. rewrite F. destruct (spec old w) as [->|Nw].
        -- destruct (spec w w); [|congruence]. rewrite (lset_same _ _ N). destruct d; reflexivity.
        -- destruct (spec w old); [congruence|]. reflexivity.
      * apply Inv_init.
      * cbn [abuf a_init]. rewrite LW. apply Forall_forall. intros i Hi. apply (proj1 (sort_unique_in _ _)) in Hi. apply in_map_iff in Hi.
        destruct Hi as [u [<- Hu]]. assert (Lu : uidx u < length c).
        { rewrite !in_app_iff in Hu. rewrite Forall_forall in Ic, Ix, Iy. destruct Hu as [Hu|[Hu|Hu]];
            [apply Ic in Hu|apply Ix in Hu|apply Iy in Hu]; lia. }
        split; [exact Lu|]. unfold f.
        destruct (nth_error (pview pc) (uidx u)) eqn:Q1; [|apply nth_error_None in Q1; lia].
        destruct (nth_error (pview px) (uidx u)) eqn:Q2; [|apply nth_error_None in Q2; lia].
        destruct (nth_error (pview py) (uidx u)) eqn:Q3; [discriminate|apply nth_error_None in Q3; lia].
      * constructor.
      * exists d'. split; [exact R1|]. split; [exact R2|]. split; [|intros _; exact R4].
        apply nth_error_ext. intros i. rewrite R5. cbn [abuf a_init]. unfold W. rewrite !where_nth.
        destruct (in_dec Nat.eq_dec i _) as [|N]; [reflexivity|].
        assert (N' : ~ In i (map (@uidx V) (pdiff pc ++ pdiff px ++ pdiff py))) by (intros X; apply N; now apply sort_unique_in).
        rewrite !map_app, !in_app_iff in N'.
        rewrite (replay_untouched spec _ _ _ i c3), (replay_untouched spec _ _ _ i p3), (replay_untouched spec _ _ _ i q3) by tauto.
        reflexivity.
Qed.
End W.

(** * Reshape *)
Theorem reshape_ok c ps shape s : wf_shape ps -> wf_shape shape -> reshape_new c ps shape = Ok s ->
  s = shape /\ dynamic shape = false /\ prod shape = prod ps /\ node_ok veqb (reshape_node ps shape) reshape_fun.
Proof.
  clear vpad spec. intros Wp Ws H. unfold reshape_new in H. destruct c; [|discriminate]. cbn [negb] in H.
  rewrite (size_neg ps Wp), (size_neg shape Ws) in H. destruct (dynamic ps) eqn:D1; [discriminate|].
  destruct (dynamic shape) eqn:D2; [discriminate|]. rewrite (static_size ps Wp D1), (static_size shape Ws D2) in H.
  destruct (Z.eqb_spec (prod shape) (prod ps)) as [E|]; [|discriminate]. cbn [negb] in H.
  split; [congruence|]. split; [reflexivity|]. split; [exact E|].
  assert (FF : forall v : list V, fits ps v -> fits shape v).
  { intros v. unfold fits, fits_len. rewrite D1, D2. lia. }
  constructor. exists (fun ins _ => exists a, ins = [a] /\ fits ps a). split; [|split].
  - intros ins v Hf HF. destruct ins as [|a [|b ins]]; try discriminate. cbn in HF. injection HF as <-.
    inversion Hf; subst. split; [now apply FF|]. exists tt. split; [reflexivity|]. eauto.
  - intros ins s0 [a [-> Fa]]. exists a. split; reflexivity.
  - intros ins s0 v pins v' [a [-> Fa]] HF HP L HF'. cbn [nd_pre reshape_node combine] in HP.
    inversion HP as [|x1 p x3 x4 Pl HP1]; subst. inversion HP1; subst. cbn [fst snd map reshape_fun] in *.
    injection HF as <-. injection HF' as <-. destruct Pl as [p1 p2 p3 p4 p5].
    exists s0. split; [reflexivity|]. split; [|split].
    + eexists. split; [reflexivity|]. split; [reflexivity|]. constructor; cbn [pview pdiff psdiff nd_shape reshape_node]; auto.
      unfold fits, fits_len in p1, p2. rewrite D1 in *. lia.
    + eauto.
    + exists s0. split; [reflexivity|]. eauto.
Qed.

(** * Size *)
Theorem size_ok (ofsize : nat -> V) ps :
  node_ok veqb (scalar_node (veqb := veqb) [ps] (size_init ofsize) (size_prop ofsize)) (size_fun ofsize).
Proof.
  apply (scalar_node_ok (ofsize 0) spec).
  - intros ins v Hf HF. destruct ins as [|a [|b ins]]; try discriminate. cbn in HF. injection HF as <-. eexists. split; reflexivity.
  - intros ins x pins x' L HF HP HF'. destruct ins as [|a [|b ins]]; try discriminate. cbn in HF. injection HF as <-.
    destruct pins as [|p [|q pins]]; try discriminate. cbn [map size_fun] in HF'. injection HF' as <-. reflexivity.
Qed.

End EP.
