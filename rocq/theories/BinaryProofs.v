From Verif Require Import Base SliceModel ShapeModel ShapeSpec ShapeProofs StateDataModel StateDataSpec StateDataProofs
  Replay NodeSpec NodeLib BinaryModel BinarySpec NodeShape.

Lemma rfold_app {A B} (f : A -> B -> res A) l m : forall a,
  rfold f a (l ++ m) = rbind (rfold f a l) (fun a' => rfold f a' m).
Proof. induction l as [|x l IH]; intros a; cbn [rfold app rbind]; auto. destruct (f a x); cbn [rbind]; auto. Qed.

Lemma zip_op_ok {V} (op : V -> V -> V) r : forall l, length l = length r ->
  zip_op op l r = Ok (map (fun p => op (fst p) (snd p)) (combine l r)).
Proof.
  induction r as [|y r IH]; intros [|x l] L; try discriminate L; [reflexivity|].
  cbn [zip_op combine map fst snd]. rewrite IH by (cbn in L; lia). reflexivity.
Qed.

Lemma bin_upd_umapi {V} f (u : update V) : bin_upd f u = umapi (fun _ => f) u.
Proof. unfold bin_upd, umapi, removed. destruct u as [i o [v|]]; reflexivity. Qed.

Lemma nth_combine {A B} (l : list A) : forall (m : list B) i, nth_error (combine l m) i =
  match nth_error l i, nth_error m i with Some x, Some y => Some (x, y) | _, _ => None end.
Proof.
  induction l as [|x l IH]; intros m i; [destruct i, m; reflexivity|].
  destruct m as [|y m]; [destruct i as [|i]; cbn [combine nth_error]; [reflexivity|destruct (nth_error l i); reflexivity]|].
  destruct i as [|i]; [reflexivity|]. cbn [combine nth_error]. apply IH.
Qed.

Lemma map2_nth {V} (op : V -> V -> V) l m i : nth_error (map (fun p => op (fst p) (snd p)) (combine l m)) i =
  match nth_error l i, nth_error m i with Some x, Some y => Some (op x y) | _, _ => None end.
Proof. rewrite nth_error_map, nth_combine. destruct (nth_error l i), (nth_error m i); reflexivity. Qed.

Lemma mapi_map2 {V} (op : V -> V -> V) l m : length l = length m ->
  mapi (fun i x => match nth_error m i with Some y => op x y | None => x end) l =
  map (fun p => op (fst p) (snd p)) (combine l m).
Proof.
  intros L. apply nth_error_ext. intros i. rewrite mapi_nth, map2_nth.
  destruct (nth_error l i) as [x|] eqn:E; [|reflexivity]. cbn [option_map].
  destruct (nth_error m i) eqn:E2; [reflexivity|]. apply nth_error_lt in E. apply nth_error_None in E2. lia.
Qed.

Lemma mapi_map2' {V} (op : V -> V -> V) l m : length l = length m ->
  mapi (fun i x => match nth_error l i with Some y => op y x | None => x end) m =
  map (fun p => op (fst p) (snd p)) (combine l m).
Proof.
  intros L. apply nth_error_ext. intros i. rewrite mapi_nth, map2_nth.
  destruct (nth_error m i) as [x|] eqn:E; [|destruct (nth_error l i); reflexivity]. cbn [option_map].
  destruct (nth_error l i) eqn:E2; [reflexivity|]. apply nth_error_lt in E. apply nth_error_None in E2. lia.
Qed.

Lemma len1 {A} (l : list A) : length l = 1 -> exists x, l = [x].
Proof. destruct l as [|x [|y l]]; cbn; try discriminate. eauto. Qed.

Section BP.
Context {V : Type} {veqb : V -> V -> bool}.
Variable vpad : V.
Variable spec : forall x y, reflect (x = y) (veqb x y).
Notation Inv := (Inv veqb).

Lemma Inv_snoc (c : list V) d u l : Inv c d -> replay1 veqb (abuf d) u = Some l ->
  Inv c {| abuf := l; aupd := aupd d ++ [u]; aprev := aprev d |}.
Proof.
  intros [A B] H. split; cbn [abuf aupd aprev]; [exact A|].
  rewrite (rp_app _ _ _ _ B). now apply rp_one.
Qed.

(** A loop recomputing elements by index. *)
Lemma recompute_loop (c : list V) (step : @adata V -> nat -> res (@adata V)) (f : nat -> option V) idxs :
  (forall d i v old, nth_error (abuf d) i = Some old -> f i = Some v ->
     step d i = Ok {| abuf := lset i v (abuf d);
            aupd := if veqb v old then aupd d else aupd d ++ [change i old v]; aprev := aprev d |}) ->
  forall d, Inv c d -> Forall (fun i => i < length (abuf d) /\ f i <> None) idxs ->
  Forall is_change (aupd d) ->
  exists d', rfold step d idxs = Ok d' /\ Inv c d' /\ length (abuf d') = length (abuf d) /\
    Forall is_change (aupd d') /\
    forall i, nth_error (abuf d') i = if in_dec Nat.eq_dec i idxs then f i else nth_error (abuf d) i.
Proof.
  intros HS. induction idxs as [|k idxs IH]; intros d I H HC.
  - exists d. repeat split; auto; try apply I.
  - inversion H as [|x y [K F] H']; subst.
    destruct (f k) as [v|] eqn:Ef; [|congruence].
    destruct (nth_error (abuf d) k) as [old|] eqn:E; [|apply nth_error_None in E; lia].
    cbn [rfold]. rewrite (HS d k v old E Ef). cbn [rbind].
    match goal with |- context [rfold step ?x idxs] => set (d1 := x) end.
    assert (I1 : Inv c d1 /\ Forall is_change (aupd d1)).
    { subst d1. destruct (spec v old) as [->|N].
      - rewrite (lset_same _ _ E). split; [|exact HC]. destruct I as [I1 I2]. split; cbn; auto.
      - split; [apply Inv_snoc; [exact I|now apply rp_change]|]. apply Forall_app. split; [exact HC|].
        constructor; [split; discriminate|constructor]. }
    destruct I1 as [I1 C1].
    assert (L1 : length (abuf d1) = length (abuf d)) by (subst d1; cbn [abuf]; apply lset_length).
    destruct (IH d1 I1) as [d' [R [I' [L' [C' N']]]]].
    { rewrite L1. exact H'. }
    { exact C1. }
    exists d'. split; [exact R|]. split; [exact I'|]. split; [congruence|]. split; [exact C'|].
    intros i. rewrite N'. destruct (in_dec Nat.eq_dec i (k :: idxs)) as [[->|Hin]|Hn].
    + destruct (in_dec Nat.eq_dec i idxs); auto. subst d1. cbn [abuf].
      rewrite nth_error_lset_eq; auto. 
    + destruct (in_dec Nat.eq_dec i idxs); [auto|contradiction].
    + cbn [In] in Hn. destruct (in_dec Nat.eq_dec i idxs); [tauto|]. subst d1. cbn [abuf].
      apply nth_error_lset_neq. tauto.
Qed.

(** The loops using the values in the update list are [update] with mapped values. *)
Lemma apply_loop (g : V -> V -> V) (ov : list V) us :
  forall d, Forall is_change us -> Forall (fun u => uidx u < length (abuf d)) us -> length ov = length (abuf d) ->
  rfold (bin_apply g ov) d us =
  match ofold a_update1 d (map (umapi (fun i x => match nth_error ov i with Some y => g x y | None => x end)) us) with
  | Some d' => Ok d' | None => UB end.
Proof.
  induction us as [|u us IH]; intros d HC HL L; [reflexivity|].
  inversion HC as [|x y [C1 C2] HC']; subst. inversion HL as [|x y L1 HL']; subst.
  cbn [rfold map ofold]. unfold bin_apply at 1, umapi at 1, a_update1 at 1. cbn [uidx uold uval].
  destruct (uold u) as [o|]; [|congruence]. destruct (uval u) as [v|]; [|congruence]. cbn [option_map].
  destruct (nth_error (abuf d) (uidx u)) as [b|] eqn:E; [|apply nth_error_None in E; lia].
  destruct (nth_error ov (uidx u)) as [y|] eqn:E2; [|apply nth_error_None in E2; lia].
  cbn [rbind]. apply IH; cbn [abuf]; rewrite ?lset_length; auto.
Qed.

(** [assign] and [update] with an elementwise function. *)
Lemma assign_step (v : list V) vs shape : (dynamic shape = false -> length vs = length v) ->
  exists d', fst (a_assign veqb (a_init v) vs) = d' /\ Inv v d' /\ abuf d' = vs /\
    (dynamic shape = false -> Forall is_change (aupd d')).
Proof.
  intros L. destruct (a_assign_ok vpad spec v (a_init v) vs (Inv_init veqb v)) as [d' [b [E [I B]]]].
  exists d'. rewrite E. split; [reflexivity|]. split; [exact I|]. split; [exact B|]. intros D.
  eapply a_assign_kinds; [exact E| |constructor]. cbn [abuf a_init]. auto.
Qed.

Lemma update_step shape (g : nat -> V -> V) old new us : replay veqb old us = Some new ->
  (dynamic shape = false -> Forall is_change us) ->
  exists d', lift_update (a_update (a_init (mapi g old)) (map (umapi g) us)) = Ok d' /\
    Inv (mapi g old) d' /\ abuf d' = mapi g new /\ (dynamic shape = false -> Forall is_change (aupd d')).
Proof.
  intros R C. pose proof (umapi_steps spec g us old new R) as S.
  destruct (a_update_ok vpad spec (mapi g old) (a_init (mapi g old)) _ _ (Inv_init veqb _) S) as [d' [b [E [I B]]]].
  exists d'. rewrite E. split; [reflexivity|]. split; [exact I|]. split; [exact B|]. intros D.
  eapply a_update_kinds; [exact E| |constructor]. now apply umapi_change, C.
Qed.


Variable op : V -> V -> V.

Definition binary_node (ls rs s : list Z) : node V :=
  array_node vpad s [ls; rs] (bin_init op ls rs) (bin_prop veqb op ls rs).

Lemma bin_new_cases ls rs s : wf_shape ls -> wf_shape rs -> wf_shape s -> bin_new ls rs = Ok s ->
  broadcast_shape ls rs = Ok s /\
  (single ls = true \/ single rs = true \/
   (dynamic ls = false /\ dynamic rs = false /\ ls = rs /\ s = ls)).
Proof.
  intros Wl Wr Ws H. unfold bin_new in H. destruct (broadcast_shape ls rs) as [t| |] eqn:E; try discriminate.
  cbn [rbind] in H. rewrite (size_is_one ls Wl), (size_is_one rs Wr), (size_neg ls Wl), (size_neg rs Wr) in H.
  destruct (single ls) eqn:S1; cbn [orb] in H.
  { split; [congruence|]. auto. }
  destruct (single rs) eqn:S2; cbn [orb] in H.
  { split; [congruence|]. auto. }
  destruct (dynamic ls) eqn:D1; cbn [orb] in H; [discriminate|].
  destruct (dynamic rs) eqn:D2; cbn [orb] in H; [discriminate|].
  destruct (zlist_eqb_spec ls rs) as [->|]; [|discriminate].
  assert (t = s) by congruence. subst t. split; [reflexivity|]. right; right.
  unfold broadcast_shape in E. rewrite bcast_idem in E. rewrite rev_involutive in E.
  assert (s = rs) by congruence. auto.
Qed.

(** When the current shapes agree without a clash, the static shapes agree (and are fixed). *)
Lemma eq_shapes ls rs (a b : list V) : wf_shape ls -> wf_shape rs -> fits ls a -> fits rs b ->
  dynamic ls = false \/ dynamic rs = false -> single ls = true \/ single rs = true \/ ls = rs ->
  clash ls rs a b = false -> state_shape ls (length a) = state_shape rs (length b) ->
  ls = rs /\ dynamic ls = false /\ length a = length b.
Proof.
  intros Wl Wr Fa Fb Dd Ss C E. unfold fits in *.
  assert (L : length ls = length rs).
  { rewrite <- (state_shape_length ls (length a)), E. apply state_shape_length. }
  unfold clash in C. rewrite L, Nat.eqb_refl in C.
  destruct (dynamic ls) eqn:D1, (dynamic rs) eqn:D2; cbn [xorb andb] in C; try (exfalso; destruct Dd; congruence).
  - (* ls dynamic *) exfalso. destruct Ss as [S|[S| ->]]; [apply single_not_dynamic in S; congruence| |congruence].
    destruct (state_shape_prod ls (length a) Wl D1 Fa) as [P _].
    rewrite E, (state_shape_fixed rs _ D2), (single_prod _ S) in P.
    rewrite (single_fits _ _ S Fb) in C. assert (length a = 1) by lia. rewrite H in C. discriminate.
  - exfalso. destruct Ss as [S|[S| ->]]; [|apply single_not_dynamic in S; congruence|congruence].
    destruct (state_shape_prod rs (length b) Wr D2 Fb) as [P _].
    rewrite <- E, (state_shape_fixed ls _ D1), (single_prod _ S) in P.
    rewrite (single_fits _ _ S Fa) in C. assert (length b = 1) by lia. rewrite H in C. discriminate.
  - rewrite (state_shape_fixed ls _ D1), (state_shape_fixed rs _ D2) in E. split; [exact E|]. split; [reflexivity|].
    unfold fits_len in *. rewrite D1 in Fa. rewrite D2 in Fb. rewrite E in Fa. lia.
Qed.

Lemma neq_shapes ls rs (a b : list V) : dynamic ls = false -> ls = rs ->
  state_shape ls (length a) = state_shape rs (length b).
Proof. intros D <-. now rewrite !state_shape_fixed. Qed.


(** The value, computed the way the branches do. *)
Lemma map2_single_l (x : V) b : length b = 1 -> map (fun p => op (fst p) (snd p)) (combine [x] b) = map (op x) b.
Proof. intros L. destruct (len1 b L) as [y ->]. reflexivity. Qed.

Theorem binary_ok ls rs s : wf_shape ls -> wf_shape rs -> wf_shape s -> bin_new ls rs = Ok s ->
  node_ok veqb (binary_node ls rs s) (bin_fun op ls rs).
Proof.
  intros Wl Wr Ws H. destruct (bin_new_cases ls rs s Wl Wr Ws H) as [B Cs].
  assert (Dd : dynamic ls = false \/ dynamic rs = false).
  { destruct Cs as [S|[S|[D _]]]; auto using single_not_dynamic. }
  assert (Ss : single ls = true \/ single rs = true \/ ls = rs) by (destruct Cs as [S|[S|[_ [_ [E _]]]]]; auto).
  assert (B' : broadcast_shape rs ls = Ok s).
  { unfold broadcast_shape in *. now rewrite bcast_comm. }
  apply array_node_ok; [exact spec| |].
  - (* initialisation *)
    intros ins v Hf HF. unfold bin_fun in HF. destruct ins as [|a [|b [|c ins]]]; try discriminate.
    inversion Hf as [|x1 x2 x3 x4 Fa Hf1]; subst. inversion Hf1 as [|x1 x2 x3 x4 Fb _]; subst. clear Hf Hf1.
    destruct (clash ls rs a b) eqn:C; [discriminate|]. split.
    + (* shape *)
      unfold fits in *. unfold bin_value in HF. destruct (single ls) eqn:S1.
      * destruct a as [|x [|y a]]; try discriminate. assert (v = map (op x) b) by congruence. subst v. rewrite map_length.
        apply (broadcast_single ls rs s Wl S1 Ws B). exact Fb.
      * destruct (single rs) eqn:S2.
        -- destruct b as [|x [|y b]]; try discriminate. assert (v = map (fun z => op z x) a) by congruence. subst v.
           rewrite map_length. apply (broadcast_single rs ls s Wr S2 Ws B'). exact Fa.
        -- destruct Cs as [S|[S|[D1 [D2 [E1 E2]]]]]; try congruence. destruct (Nat.eqb_spec (length a) (length b)); [|discriminate].
           injection HF as <-. rewrite map_length, combine_length. subst s. rewrite <- e, Nat.min_id. exact Fa.
    + cbn [map still bin_init pview]. rewrite (size_is_one ls Wl), (size_is_one rs Wr).
      destruct (zlist_eqb_spec (state_shape ls (length a)) (state_shape rs (length b))) as [E|E].
      * destruct (eq_shapes ls rs a b Wl Wr Fa Fb Dd Ss C E) as [E1 [E2 E3]]. rewrite (zip_op_ok op b a E3). cbn [rbind].
        f_equal. f_equal. unfold bin_value in HF. destruct (single ls) eqn:S1.
        -- destruct a as [|x [|y a]]; try discriminate. rewrite map2_single_l by (cbn in E3; lia). congruence.
        -- rewrite <- E1, S1, E3, Nat.eqb_refl in HF. congruence.
      * unfold bin_value in HF. destruct (single ls) eqn:S1.
        -- destruct a as [|x [|y a]]; try discriminate. congruence.
        -- destruct (single rs) eqn:S2.
           ++ destruct b as [|x [|y b]]; try discriminate. congruence.
           ++ destruct Cs as [S|[S|[D1 [D2 [E1 E2]]]]]; try congruence. exfalso. apply E. now apply neq_shapes.
  - (* propagation *)
    intros ins v pins v' Lp HF HP HF'. unfold bin_fun in HF. destruct ins as [|a [|b [|c ins]]]; try discriminate.
    destruct (clash ls rs a b) eqn:C; [discriminate|].
    unfold pins_ok in HP. cbn [combine] in HP. inversion HP as [|x1 l x3 x4 Pl HP1]; subst.
    inversion HP1 as [|x1 r x3 x5 Pr HP2]; subst. inversion HP2; subst. clear HP HP1 HP2. cbn [fst snd] in *.
    cbn [map bin_fun] in HF'. destruct (clash ls rs (pview l) (pview r)) eqn:C'; [discriminate|].
    destruct Pl as [l1 l2 l3 l4 l5]. destruct Pr as [r1 r2 r3 r4 r5].
    cbn [bin_prop]. rewrite (size_is_one ls Wl), (size_is_one rs Wr).
    destruct (zlist_eqb_spec (state_shape ls (length (pview l))) (state_shape rs (length (pview r)))) as [E|E].
    + destruct (eq_shapes ls rs _ _ Wl Wr l2 r2 Dd Ss C' E) as [E1 [E2 E3]]. rewrite <- E1 in *.
      specialize (l5 E2). specialize (r5 E2).
      destruct (replay_changes_length spec _ _ _ l3 l5) as [La Ia].
      destruct (replay_changes_length spec _ _ _ r3 r5) as [Lb Ib].
      assert (E0 : length a = length b) by lia.
      (* the value is the pointwise one, before and after *)
      assert (HV : v = map (fun p => op (fst p) (snd p)) (combine a b) /\
                   v' = map (fun p => op (fst p) (snd p)) (combine (pview l) (pview r))).
      { unfold bin_value in HF, HF'. destruct (single ls) eqn:S1.
        - destruct a as [|x [|y a]]; try discriminate. destruct (pview l) as [|x' [|y' l']]; try discriminate.
          rewrite !map2_single_l by (cbn in *; lia). split; congruence.
        - rewrite E0, Nat.eqb_refl in HF. rewrite E3, Nat.eqb_refl in HF'. split; congruence. }
      destruct HV as [-> ->].
      assert (LV : length (map (fun p => op (fst p) (snd p)) (combine a b)) = length a).
      { rewrite map_length, combine_length. lia. }
      assert (G : forall d', Inv (map (fun p => op (fst p) (snd p)) (combine a b)) d' /\
        abuf d' = map (fun p => op (fst p) (snd p)) (combine (pview l) (pview r)) /\ Forall is_change (aupd d') ->
        exists d'', Ok d' = Ok d'' /\ Inv (map (fun p => op (fst p) (snd p)) (combine a b)) d'' /\
        abuf d'' = map (fun p => op (fst p) (snd p)) (combine (pview l) (pview r)) /\
        (dynamic s = false -> Forall is_change (aupd d''))).
      { intros d' [X [Y Z]]. exists d'. auto. }
      destruct (pdiff l) as [|lu lus] eqn:Dl; [|destruct (pdiff r) as [|ru rus] eqn:Dr].
      * (* only the right may have changed *)
        assert (EL : pview l = a) by (rewrite rp_nil in l3; congruence). rewrite EL in *.
        rewrite (apply_loop (fun y x => op x y) a (pdiff r)); [|exact r5|cbn [abuf a_init]; rewrite LV, E0; exact Ib|cbn [abuf a_init]; lia].
        pose proof (update_step ls (fun i x => match nth_error a i with Some y => op y x | None => x end) _ _ _ r3 (fun _ => r5)) as U.
        destruct U as [d' [U1 [U2 [U3 U4]]]]. rewrite (mapi_map2' op a b E0) in U1, U2. rewrite (mapi_map2' op a (pview r)) in U3 by lia.
        unfold a_update, lift_update in U1. destruct (ofold _ _ _) as [d1|]; [|discriminate]. injection U1 as <-.
        apply G. auto.
      * assert (ER : pview r = b) by (rewrite rp_nil in r3; congruence). rewrite ER in *.
        rewrite (apply_loop op b (lu :: lus)); [|exact l5|cbn [abuf a_init]; rewrite LV; exact Ia|cbn [abuf a_init]; lia].
        pose proof (update_step ls (fun i x => match nth_error b i with Some y => op x y | None => x end) _ _ _ l3 (fun _ => l5)) as U.
        destruct U as [d' [U1 [U2 [U3 U4]]]]. rewrite (mapi_map2 op a b E0) in U1, U2. rewrite (mapi_map2 op (pview l) b) in U3 by lia.
        unfold a_update, lift_update in U1. destruct (ofold _ _ _) as [d1|]; [|discriminate]. injection U1 as <-.
        apply G. auto.
      * (* both *)
        rewrite <- rfold_app.
        set (f := fun i => match nth_error (pview l) i, nth_error (pview r) i with Some x, Some y => Some (op x y) | _, _ => None end).
        destruct (recompute_loop (map (fun p => op (fst p) (snd p)) (combine a b)) (bin_recompute veqb op (pview l) (pview r)) f
          (map (@uidx V) (lu :: lus) ++ map (@uidx V) (ru :: rus))) with (d := a_init (map (fun p => op (fst p) (snd p)) (combine a b)))
          as [d' [R1 [R2 [R3 [R4 R5]]]]].
        -- intros d i w old N F. unfold f in F. unfold bin_recompute. rewrite N.
           destruct (nth_error (pview l) i), (nth_error (pview r) i); try discriminate. injection F as <-. reflexivity.
        -- apply Inv_init.
        -- cbn [abuf a_init]. rewrite LV. unfold f.
           assert (X : forall i, i < length a -> i < length a /\ match nth_error (pview l) i, nth_error (pview r) i with Some x, Some y => Some (op x y) | _, _ => None end <> None).
           { intros i Hi. split; [exact Hi|]. destruct (nth_error (pview l) i) eqn:Q1; [|apply nth_error_None in Q1; lia].
             destruct (nth_error (pview r) i) eqn:Q2; [discriminate|apply nth_error_None in Q2; lia]. }
           apply Forall_app. split; apply Forall_map; eapply Forall_impl.
           2: exact Ia. 3: exact Ib. all: cbn beta; intros u Hu; apply X; lia.
        -- constructor.
        -- rewrite R1. apply G. split; [exact R2|]. split; [|exact R4].
           apply nth_error_ext. intros i. rewrite R5, map2_nth. cbn [abuf a_init].
           destruct (in_dec Nat.eq_dec i _) as [|N]; [reflexivity|]. rewrite map2_nth.
           rewrite in_app_iff in N.
           rewrite (replay_untouched spec _ _ _ i l3) by tauto.
           rewrite (replay_untouched spec _ _ _ i r3) by tauto. reflexivity.
    + unfold bin_value in HF, HF'. destruct (single ls) eqn:S1.
      * destruct a as [|x [|x' a]]; try discriminate. destruct (pview l) as [|y [|y' l']] eqn:El; try discriminate.
        assert (v = map (op x) b) by congruence. assert (v' = map (op y) (pview r)) by congruence. subst v v'.
        destruct (broadcast_single ls rs s Wl S1 Ws B) as [Dy _].
        destruct (pdiff l) as [|lu lus] eqn:Dl.
        -- assert (x = y) by (rewrite rp_nil in l3; congruence). subst y.
           pose proof (update_step s (fun _ => op x) _ _ _ r3) as U. rewrite !mapi_map in U.
           rewrite (map_ext _ (umapi (fun _ => op x))) by (intros; apply bin_upd_umapi). apply U. rewrite Dy. exact r5.
        -- destruct (assign_step (map (op x) b) (map (op y) (pview r)) s) as [d' [A1 [A2 [A3 A4]]]].
           { rewrite Dy, !map_length. intros D. specialize (r5 D). apply (replay_changes_length spec _ _ _ r3 r5). }
           exists d'. rewrite A1. auto.
      * destruct (single rs) eqn:S2.
        -- destruct b as [|x [|x' b]]; try discriminate. destruct (pview r) as [|y [|y' l']] eqn:El; try discriminate.
           assert (v = map (fun z => op z x) a) by congruence. assert (v' = map (fun z => op z y) (pview l)) by congruence. subst v v'.
           destruct (broadcast_single rs ls s Wr S2 Ws B') as [Dy _].
           destruct (pdiff r) as [|lu lus] eqn:Dl.
           ++ assert (x = y) by (rewrite rp_nil in r3; congruence). subst y.
              pose proof (update_step s (fun _ z => op z x) _ _ _ l3) as U. rewrite !mapi_map in U.
              rewrite (map_ext _ (umapi (fun _ z => op z x))) by (intros; apply bin_upd_umapi). apply U. rewrite Dy. exact l5.
           ++ destruct (assign_step (map (fun z => op z x) a) (map (fun z => op z y) (pview l)) s) as [d' [A1 [A2 [A3 A4]]]].
              { rewrite Dy, !map_length. intros D. specialize (l5 D). apply (replay_changes_length spec _ _ _ l3 l5). }
              exists d'. rewrite A1. auto.
        -- destruct Cs as [S|[S|[D1 [D2 [E1 E2]]]]]; try congruence. exfalso. apply E. now apply neq_shapes.
Qed.

End BP.

(** * Broadcasting by multi-index *)
Local Open Scope Z_scope.

Lemma rank_zeros idx : Forall (eq 0) idx -> forall s, rank s idx = 0.
Proof.
  intros H s. unfold rank. revert s. induction H as [|i idx E H IH]; intros [|d s]; cbn [combine fold_left fst snd]; auto.
  subst i. rewrite Z.mul_0_l. apply IH.
Qed.

Lemma bc_index_ones n idx : Forall (eq 0) (bc_index (repeat 1 n) idx).
Proof.
  unfold bc_index. rewrite repeat_length. generalize (skipn (length idx - n) idx). clear idx.
  induction n as [|n IH]; intros [|i l]; cbn [repeat combine map]; constructor; [reflexivity|apply IH].
Qed.

Lemma bc_index_suffix s idx i : (length s <= length idx)%nat -> skipn (length idx - length s) idx = i ->
  in_range s i -> bc_index s idx = i.
Proof.
  intros L E R. unfold bc_index. rewrite E. clear L E. induction R as [|d k s i H R IH]; [reflexivity|].
  cbn [combine map fst snd]. rewrite IH. f_equal. destruct (Z.eqb_spec d 1); lia.
Qed.

Lemma rank_ones_app n : forall idx s i, in_range (repeat 1 n ++ s) idx -> i = skipn n idx ->
  rank (repeat 1 n ++ s) idx = rank s i /\ in_range s i.
Proof.
  induction n as [|n IH]; intros idx s i R E.
  - subst i. cbn in *. auto.
  - cbn [repeat app] in *. inversion R as [|d k l idx' Hk R']; subst. cbn [skipn].
    assert (k = 0)%Z by lia. subst k. destruct (IH idx' s _ R' eq_refl) as [A B]. split; [|exact B].
    rewrite rank_cons; [rewrite A; lia|]. exact (in_range_len _ _ R').
Qed.

Lemma state_shape_len s n : wf_shape s -> fits_len s n -> prod (state_shape s n) = Z.of_nat n.
Proof.
  intros W F. destruct (dynamic s) eqn:D; [now apply state_shape_prod|].
  rewrite (state_shape_fixed s n D). unfold fits_len in F. rewrite D in F. lia.
Qed.

Lemma broadcast_single_form ls rs s : wf_shape ls -> single ls = true -> wf_shape s ->
  broadcast_shape ls rs = Ok s -> exists m, forall n, state_shape s n = repeat 1 m ++ state_shape rs n.
Proof.
  intros W S Ws H. rewrite (single_ones ls W S) in H. apply broadcast_ones in H. subst s.
  exists (length ls - length rs)%nat. intros n. destruct (length ls - length rs)%nat as [|m]; [reflexivity|].
  cbn [repeat app] in *. destruct Ws as [T _]. cbn [tl] in T. apply Forall_app in T. destruct T as [_ T].
  rewrite (state_shape_fixed rs); [reflexivity|].
  destruct rs as [|d rs]; [reflexivity|]. inversion T; subst. unfold dynamic. apply Z.ltb_ge. lia.
Qed.

Lemma in_range_nth {A} s idx (v : list A) : in_range s idx -> prod s = Z.of_nat (length v) ->
  exists x, nth_error v (Z.to_nat (rank s idx)) = Some x.
Proof.
  intros R P. pose proof (rank_bounds s idx R).
  destruct (nth_error v (Z.to_nat (rank s idx))) as [x|] eqn:E; [eauto|]. apply nth_error_None in E. lia.
Qed.

Lemma bin_value_len {V} (op : V -> V -> V) ls rs a b v : bin_value op ls rs a b = Some v ->
  length v = if single ls then length b else length a.
Proof.
  unfold bin_value. intros H. destruct (single ls).
  - destruct a as [|x [|y a]]; try discriminate. injection H as <-. apply map_length.
  - destruct (single rs).
    + destruct b as [|x [|y b]]; try discriminate. injection H as <-. apply map_length.
    + destruct (Nat.eqb_spec (length a) (length b)) as [E|E]; [|discriminate]. injection H as <-. rewrite map_length, combine_length. lia.
Qed.

Lemma bin_broadcast {V} (op : V -> V -> V) ls rs s a b v : wf_shape ls -> wf_shape rs -> wf_shape s -> bin_new ls rs = Ok s ->
  fits ls a -> fits rs b -> bin_value op ls rs a b = Some v ->
  forall idx, in_range (state_shape s (length v)) idx -> exists x y,
    nth_error a (Z.to_nat (rank (state_shape ls (length a)) (bc_index (state_shape ls (length a)) idx))) = Some x /\
    nth_error b (Z.to_nat (rank (state_shape rs (length b)) (bc_index (state_shape rs (length b)) idx))) = Some y /\
    nth_error v (Z.to_nat (rank (state_shape s (length v)) idx)) = Some (op x y).
Proof.
  intros Wl Wr Ws H Fa Fb HV idx R. destruct (bin_new_cases ls rs s Wl Wr Ws H) as [B Cs].
  pose proof (bin_value_len op ls rs a b v HV) as LV. unfold fits in *. unfold bin_value in HV.
  destruct (single ls) eqn:S1.
  - destruct a as [|x [|x' a]]; try discriminate. assert (v = map (op x) b) by congruence. subst v.
    rewrite LV in R |- *. destruct (broadcast_single_form ls rs s Wl S1 Ws B) as [m Em]. rewrite Em in R |- *.
    pose proof (in_range_len _ _ R) as LR. rewrite app_length, repeat_length in LR.
    destruct (rank_ones_app m idx _ (skipn m idx) R eq_refl) as [K1 K2]. rewrite K1.
    rewrite (bc_index_suffix (state_shape rs (length b)) idx (skipn m idx)); [|lia|f_equal; lia|exact K2].
    destruct (in_range_nth _ _ b K2 (state_shape_len _ _ Wr Fb)) as [y Ey]. exists x, y.
    split; [|split; [exact Ey|rewrite nth_error_map, Ey; reflexivity]].
    rewrite (state_shape_fixed ls _ (single_not_dynamic _ S1)), (single_ones ls Wl S1).
    rewrite (rank_zeros _ (bc_index_ones _ _)). reflexivity.
  - destruct (single rs) eqn:S2.
    + destruct b as [|y [|y' b]]; try discriminate. assert (v = map (fun z => op z y) a) by congruence. subst v.
      assert (B' : broadcast_shape rs ls = Ok s) by (unfold broadcast_shape in *; now rewrite bcast_comm).
      rewrite LV in R |- *. destruct (broadcast_single_form rs ls s Wr S2 Ws B') as [m Em]. rewrite Em in R |- *.
      pose proof (in_range_len _ _ R) as LR. rewrite app_length, repeat_length in LR.
      destruct (rank_ones_app m idx _ (skipn m idx) R eq_refl) as [K1 K2]. rewrite K1.
      rewrite (bc_index_suffix (state_shape ls (length a)) idx (skipn m idx)); [|lia|f_equal; lia|exact K2].
      destruct (in_range_nth _ _ a K2 (state_shape_len _ _ Wl Fa)) as [x Ex]. exists x, y.
      split; [exact Ex|]. split; [|rewrite nth_error_map, Ex; reflexivity].
      rewrite (state_shape_fixed rs _ (single_not_dynamic _ S2)), (single_ones rs Wr S2).
      rewrite (rank_zeros _ (bc_index_ones _ _)). reflexivity.
    + destruct Cs as [S|[S|[D1 [D2 [E1 E2]]]]]; try congruence. subst s. rewrite <- E1 in *.
      destruct (Nat.eqb_spec (length a) (length b)) as [E|E]; [|discriminate].
      assert (v = map (fun p => op (fst p) (snd p)) (combine a b)) by congruence. subst v.
      rewrite (state_shape_fixed ls _ D1) in R. rewrite !(state_shape_fixed ls _ D1).
      pose proof (in_range_len _ _ R) as LR.
      rewrite (bc_index_suffix ls idx idx); [|lia|rewrite LR, Nat.sub_diag; reflexivity|exact R].
      unfold fits_len in *. rewrite D1 in *.
      destruct (in_range_nth ls idx a R ltac:(lia)) as [x Ex]. destruct (in_range_nth ls idx b R ltac:(lia)) as [y Ey].
      exists x, y. rewrite map2_nth, Ex, Ey. auto.
Qed.

(** * Shape and size in a state *)
Lemma bin_state_size_ok {V} (op : V -> V -> V) ls rs s a b v : wf_shape ls -> wf_shape rs -> wf_shape s -> bin_new ls rs = Ok s ->
  fits ls a -> fits rs b -> bin_value op ls rs a b = Some v ->
  bin_state_size s (length a) (length b) = Ok (Z.of_nat (length v)).
Proof.
  intros Wl Wr Ws H Fa Fb HV. destruct (bin_new_cases ls rs s Wl Wr Ws H) as [B Cs].
  assert (B' : broadcast_shape rs ls = Ok s) by (unfold broadcast_shape in *; now rewrite bcast_comm).
  pose proof (bin_value_len op ls rs a b v HV) as LV. unfold fits in *. unfold bin_state_size.
  assert (Fv : fits_len s (length v)).
  { rewrite LV. destruct (single ls) eqn:S1; [now apply (broadcast_single ls rs s Wl S1 Ws B)|].
    destruct (single rs) eqn:S2; [now apply (broadcast_single rs ls s Wr S2 Ws B')|].
    destruct Cs as [S|[S|[D1 [D2 [E1 E2]]]]]; congruence. }
  pose proof (size_neg s Ws) as N. destruct (dynamic s) eqn:D.
  - destruct (Z.leb_spec 0 (shape_to_size s)) as [X|X]; [apply Z.ltb_lt in N; lia|].
    destruct (single ls) eqn:S1.
    + rewrite (single_fits _ _ S1 Fa). cbn. congruence.
    + destruct (single rs) eqn:S2.
      * rewrite (single_fits _ _ S2 Fb). rewrite Nat.eqb_refl, orb_true_r. destruct (Nat.eqb_spec (length a) 1) as [E|E]; congruence.
      * destruct Cs as [S|[S|[D1 [D2 [E1 E2]]]]]; congruence.
  - destruct (Z.leb_spec 0 (shape_to_size s)) as [X|X]; [|apply Z.ltb_ge in N; lia].
    rewrite (static_size s Ws D). unfold fits_len in Fv. rewrite D in Fv. congruence.
Qed.

Lemma bin_state_shape_ok {V} (op : V -> V -> V) ls rs s a b v : wf_shape ls -> wf_shape rs -> wf_shape s -> bin_new ls rs = Ok s ->
  fits ls a -> fits rs b -> bin_value op ls rs a b = Some v ->
  (dynamic ls = true -> length a <> 1%nat) ->
  bin_state_shape ls rs s (length a) (length b) = Ok (state_shape s (length v)).
Proof.
  intros Wl Wr Ws H Fa Fb HV NE. destruct (bin_new_cases ls rs s Wl Wr Ws H) as [B Cs].
  assert (B' : broadcast_shape rs ls = Ok s) by (unfold broadcast_shape in *; now rewrite bcast_comm).
  pose proof (bin_value_len op ls rs a b v HV) as LV. unfold fits in *. unfold bin_state_shape.
  rewrite (size_neg s Ws). destruct (dynamic s) eqn:D; cbn [negb]; [|rewrite state_shape_fixed by exact D; reflexivity].
  assert (X : forall l r, wf_shape l -> single l = true -> broadcast_shape l r = Ok s -> s = r).
  { intros l r W S E. rewrite (single_ones l W S) in E. apply broadcast_ones in E.
    destruct (length l - length r)%nat as [|m]; [exact E|]. rewrite E in D. cbn in D. discriminate. }
  destruct (single ls) eqn:S1.
  - rewrite (single_fits _ _ S1 Fa). cbn. rewrite LV. now rewrite (X ls rs Wl S1 B).
  - destruct (single rs) eqn:S2.
    + rewrite (single_fits _ _ S2 Fb), Nat.eqb_refl, orb_true_r. rewrite LV.
      rewrite (X rs ls Wr S2 B') in *. destruct (Nat.eqb_spec (length a) 1) as [E|E]; [|reflexivity].
      exfalso. now apply NE.
    + destruct Cs as [S|[S|[D1 [D2 [E1 E2]]]]]; congruence.
Qed.
