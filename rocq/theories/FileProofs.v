(** The indices inferred from a view make the same view again, with the same contiguity. *)
From Verif Require Import Base Num SliceModel ShapeModel ShapeSpec ShapeProofs ShapeProofs2 ShapeProps SliceSpec StateDataModel BasicModel BasicSpec BasicProofs BasicProps ViewModel
  ViewProofs2 NodeSpec GraphSpec PermModel PyModel PySpec FileModel FileSpec PartialProofs RunProofs.
Local Open Scope Z_scope.

Lemma strides_8 : forall axes ix p, Forall (fun a => (8 | snd a)) axes -> parse_loop false axes ix = Ok p -> Forall (fun s => (8 | s)) (p_strides p).
Proof.
  induction axes as [|[d st] ax IH]; intros [|[z|s] r] p F E; cbn [parse_loop] in E; try discriminate E; try (injection E as <-; constructor).
  - inversion F; subst. cbn [snd] in *. destruct (_ || _); [discriminate E|]. destruct (parse_loop false ax r) as [q| |] eqn:Q; cbn [rbind] in E; try discriminate E. injection E as <-. cbn [p_strides]. eauto.
  - inversion F; subst. cbn [snd] in *. destruct (sstep s =? 0); [discriminate E|]. destruct (sstep s <? 0); [discriminate E|].
    destruct (fit s d) as [f| |]; cbn [rbind] in E; try discriminate E. destruct (slice_size f) as [n| |]; cbn [rbind] in E; try discriminate E.
    destruct (parse_loop false ax r) as [q| |] eqn:Q; cbn [rbind] in E; try discriminate E. injection E as <-. cbn [p_strides]. constructor; [|eauto].
    now apply Z.divide_mul_r.
Qed.
Lemma packed_axes_8 sh st : packed sh st -> Forall (fun a : Z * Z => (8 | snd a)) (combine sh st).
Proof.
  intros P. apply packed_8 in P. clear - P. revert st P. induction sh as [|d sh IH]; intros [|s st] P; cbn [combine]; auto. inversion P; subst. constructor; auto.
Qed.

Lemma filter_le {A} (f : A -> bool) l : (length (filter f l) <= length l)%nat.
Proof. induction l as [|a l IH]; cbn; [lia|]. destruct (f a); cbn; lia. Qed.
Lemma in_idx : forall sh idx, in_range sh idx -> In idx (BasicSpec.all_idx sh).
Proof.
  induction sh as [|d sh IH]; intros idx I; inversion I as [|? i ? t Hi It]; subst; [now left|]. cbn [BasicSpec.all_idx]. apply in_flat_map. exists i. split.
  - unfold zseq. apply in_map_iff. exists (Z.to_nat i). split; [lia|]. apply in_seq. lia.
  - apply in_map. auto.
Qed.
Lemma offset_0 : forall st n, offset st (repeat 0 n) = 0.
Proof. induction st as [|s st IH]; intros [|n]; cbn; auto. Qed.
Lemma elements_offsets p q : p_shape q = p_shape p -> elements q = elements p -> Forall (fun d => 1 <= d) (p_shape p) ->
  Forall (fun s => (8 | s)) (p_strides p) -> Forall (fun s => (8 | s)) (p_strides q) ->
  forall idx, in_range (p_shape p) idx -> offset (p_strides q) idx = offset (p_strides p) idx.
Proof.
  intros Es Ee F D1 D2.
  assert (G : forall idx, in_range (p_shape p) idx -> p_start q + offset (p_strides q) idx / 8 = p_start p + offset (p_strides p) idx / 8).
  { unfold elements in Ee. rewrite Es in Ee. intros idx I. apply in_idx in I. revert Ee I. generalize (BasicSpec.all_idx (p_shape p)) as l. clear. induction l as [|a l IH]; intros Ee I; [destruct I|].
    cbn [map] in Ee. injection Ee as E1 E2. destruct I as [->|I]; auto. }
  assert (Z0 : in_range (p_shape p) (repeat 0 (length (p_shape p)))).
  { clear - F. induction F as [|d sh Hd F IH]; cbn; constructor; auto. lia. }
  pose proof (G _ Z0) as G0. rewrite !offset_0 in G0. change (0 / 8) with 0 in G0. assert (S0 : p_start q = p_start p) by lia. clear G0.
  intros idx I. specialize (G idx I). rewrite S0 in G. pose proof (offset_div _ idx D1) as [a A]. pose proof (offset_div _ idx D2) as [b B]. rewrite A, B in *.
  rewrite !Z.div_mul in G by lia. lia.
Qed.
Lemma parse_len axes f ix p : parse_loop f axes ix = Ok p -> length (p_shape p) = length (p_strides p).
Proof.
  revert f ix p. induction axes as [|[d st] ax IH]; intros f [|[z|s] r] p E; cbn [parse_loop] in E; try discriminate E; try (injection E as <-; reflexivity).
  - destruct f; [discriminate E|]. destruct (_ || _); [discriminate E|]. destruct (parse_loop false ax r) as [q| |] eqn:Q; cbn [rbind] in E; try discriminate E. injection E as <-. cbn [p_shape p_strides]. eauto.
  - destruct (sstep s =? 0); [discriminate E|]. destruct (sstep s <? 0); [discriminate E|]. destruct f.
    + destruct (parse_loop false ax r) as [q| |] eqn:Q; cbn [rbind] in E; try discriminate E. injection E as <-. cbn [p_shape p_strides length]. f_equal. eauto.
    + destruct (fit s d) as [f| |]; cbn [rbind] in E; try discriminate E. destruct (slice_size f) as [n| |]; cbn [rbind] in E; try discriminate E.
      destruct (parse_loop false ax r) as [q| |] eqn:Q; cbn [rbind] in E; try discriminate E. injection E as <-. cbn [p_shape p_strides length]. f_equal. eauto.
Qed.

Lemma bool_opt (a b : option bool) : a <> None -> b <> None -> (a = Some true <-> b = Some true) -> a = b.
Proof. destruct a as [[|]|], b as [[|]|]; intros A B C; try reflexivity; try congruence; exfalso; [discriminate (proj1 C eq_refl)|discriminate (proj2 C eq_refl)]. Qed.
(** Same positions, same contiguity. *)
Lemma contig_static sh st st' : length sh = length st -> length sh = length st' -> Forall (fun d => 1 <= d) sh ->
  (forall idx, in_range sh idx -> offset st' idx = offset st idx) -> is_contiguous sh st' = is_contiguous sh st.
Proof.
  intros L L' F G. assert (F' : Forall (fun d => 0 < d) sh) by (eapply Forall_impl; [|exact F]; cbn; intros; lia).
  destruct (C23_contiguous_exact sh st L F') as [A A']. destruct (C23_contiguous_exact sh st' L' F') as [B B'].
  apply bool_opt; auto. rewrite A, B. unfold layout. split; intros H idx I; specialize (H idx I); specialize (G idx I); congruence.
Qed.
Lemma contig_dyn_defined d s st sh : Forall (fun d => 1 <= d) sh -> is_contiguous (d :: sh) (s :: st) <> None.
Proof.
  intros F. unfold is_contiguous. cbn [combine rev].
  assert (F' : Forall (fun a : Z * Z => 1 <= fst a) (rev (combine sh st))).
  { apply Forall_rev. clear - F. revert st. induction F as [|x l Hx F IH]; intros [|y st]; cbn; constructor; auto. }
  revert F'. generalize (rev (combine sh st)) as l. generalize itemsize as sd. clear. intros sd l. revert sd.
  induction l as [|[x y] l IH]; intros sd F; cbn [app contig].
  - rewrite orb_true_r. cbn [negb]. destruct (d =? 0); [discriminate|]. destruct (_ && _); discriminate.
  - inversion F; subst. cbn [fst] in *. destruct (Z.leb_spec 0 x); [|lia]. cbn [orb negb]. destruct (x =? 0); [discriminate|]. destruct (_ && _); [discriminate|]. auto.
Qed.
Lemma contig_rows sh s st st' : length sh = length st -> length sh = length st' -> Forall (fun d => 1 <= d) sh ->
  (forall idx, in_range sh idx -> offset st' idx = offset st idx) -> is_contiguous (-1 :: sh) (s :: st') = is_contiguous (-1 :: sh) (s :: st).
Proof.
  intros L L' F G. assert (F' : Forall (fun d => 0 < d) sh) by (eapply Forall_impl; [|exact F]; cbn; intros; lia).
  apply bool_opt; try now apply contig_dyn_defined.
  rewrite (contig_dynamic sh s st L F'), (contig_dynamic sh s st' L' F'). unfold layout.
  split; intros H n Hn idx I; specialize (H n Hn idx I); inversion I as [|? i ? t Hi It]; subst; cbn [offset] in *; specialize (G t It); lia.
Qed.

(** The indices as Python reads them back. *)
Definition back (i : sidx) : pyidx := match i with IInt z => PInt z | ISlice s => PSlice (Some (sstart s)) (Some (sstop s)) (Some (sstep s)) end.
Lemma back_ok sh ix : accepts sh ix -> rmap to_sidx (map back ix) = Ok ix.
Proof.
  induction 1 as [|d i sh ix Hi H IH]; [reflexivity|]. cbn [map rmap]. rewrite IH. destruct i as [z|[a b c]]; cbn [back to_sidx rbind]; [reflexivity|].
  cbn in Hi. unfold mk_slice. cbn [value_or sstart sstop sstep]. destruct (Z.eqb_spec c 0); [lia|]. reflexivity.
Qed.

Lemma prod_dims sh : Forall (fun d => 1 <= d) sh -> prod sh < 2147483648 -> Forall (fun d => 1 <= d <= SMAX) sh.
Proof.
  intros F. assert (P : forall l, Forall (fun d => 1 <= d) l -> 1 <= prod l) by (induction 1; cbn [prod]; nia).
  intros B. induction F as [|d sh Hd F IH]; constructor.
  - cbn [prod] in B. specialize (P sh F). unfold SMAX. nia.
  - apply IH. cbn [prod] in B. specialize (P sh F). nia.
Qed.
Lemma static_size sh : Forall (fun d => 1 <= d) sh -> prod sh < 2147483648 -> 0 <= shape_to_size sh.
Proof.
  intros F B. unfold shape_to_size. destruct sh as [|d sh]; [lia|]. inversion F; subst. destruct (Z.ltb_spec d 0); [lia|].
  assert (G : forall l a, fold_left Z.mul l a = a * prod l) by (induction l as [|x l IH]; intros a; cbn [fold_left prod]; [lia|]; rewrite IH; ring).
  rewrite G, Z.mul_1_l. assert (P : forall l, Forall (fun d => 1 <= d) l -> 1 <= prod l) by (induction 1; cbn [prod]; nia).
  specialize (P _ F). unfold to_int. rewrite Z.mod_small by lia. destruct (Z.ltb_spec (prod (d :: sh)) 2147483648); lia.
Qed.

Lemma parse_split size sh st c ix p : parse size sh st c ix = Ok p -> c = true /\ length ix = length sh /\ parse_loop (size <? 0) (combine sh st) ix = Ok p.
Proof.
  unfold parse. destruct (Nat.ltb_spec (length ix) (length sh)); [discriminate|]. destruct (Nat.ltb_spec (length sh) (length ix)); [discriminate|]. destruct c; [|discriminate].
  cbn [negb]. intros E. repeat split; auto. lia.
Qed.
Lemma parse_join size sh st ix p : length ix = length sh -> parse_loop (size <? 0) (combine sh st) ix = Ok p -> parse size sh st true ix = Ok p.
Proof. intros L E. unfold parse. rewrite L, Nat.ltb_irrefl. exact E. Qed.

Lemma rebuild sh c ix r : inferable sh ix -> basic_new (shape_to_size sh) sh (shape_to_strides sh) c ix = Ok r ->
  exists jx r', parse (shape_to_size sh) sh (shape_to_strides sh) c ix = Ok (fst r) /\ infer_indices sh (shape_to_strides sh) (fst r) = Ok jx /\
    rmap to_sidx (map back jx) = Ok jx /\
    basic_new (shape_to_size sh) sh (shape_to_strides sh) c jx = Ok r' /\ p_shape (fst r') = p_shape (fst r) /\ snd r' = snd r /\
    forall n, selected (if dynamic sh then n :: tl sh else sh) ix = selected (if dynamic sh then n :: tl sh else sh) jx.
Proof.
  intros [Hd I] E. unfold basic_new in E. destruct (parse _ sh _ c ix) as [p| |] eqn:P; cbn [rbind] in E; try discriminate E.
  destruct (is_contiguous (p_shape p) (p_strides p)) as [b|] eqn:C; [|discriminate E]. injection E as <-. cbn [fst snd].
  pose proof (parse_split _ _ _ _ _ _ P) as (-> & L & PL). destruct (dynamic sh) eqn:D.
  - destruct sh as [|d sh]; [discriminate D|]. specialize (Hd eq_refl). cbn [hd tl] in *. subst d. destruct I as (I1 & I2 & I3 & I4).
    pose proof (prod_dims sh I1 I2) as B. change (shape_to_size (-1 :: sh)) with (-1) in *. change (-1 <? 0) with true in PL.
    assert (HS : exists s0, shape_to_strides (-1 :: sh) = s0 :: shape_to_strides sh) by (destruct sh; cbn; eauto). destruct HS as [s0 HS]. rewrite HS in *.
    assert (B0 : Forall (fun d => 0 <= d <= SMAX) sh) by (eapply Forall_impl; [|exact B]; cbn; intros; lia).
    pose proof (strides_packed sh) as K. cbn [combine parse_loop] in PL. destruct ix as [|[z|s] ix]; [discriminate L|discriminate PL|]. cbn [length tl] in *.
    destruct (sstep s =? 0) eqn:S0; [discriminate PL|]. destruct (sstep s <? 0) eqn:S1; [discriminate PL|].
    destruct (parse_loop false (combine sh (shape_to_strides sh)) ix) as [q| |] eqn:Q; cbn [rbind] in PL; try discriminate PL.
    assert (Q0 : parse 0 sh (shape_to_strides sh) true ix = Ok q) by (apply parse_join; [lia|exact Q]).
    destruct (C36_selects 0 _ _ _ _ ltac:(lia) K B0 Q0) as (Ha & E1 & E2).
    destruct (infer_back _ _ _ _ Ha K I3 B Q) as (jx & J1 & J2 & J3 & J4).
    destruct (parse_ok sh (shape_to_strides sh) jx J2 K B0) as (q' & Q' & Q1 & Q2 & _ & Q3).
    injection PL as <-. cbn [p_shape p_strides p_start p_axis0] in *.
    assert (L' : length (ISlice s :: jx) = length (-1 :: sh)) by (cbn [length]; apply acc_len in J2; lia).
    exists (ISlice s :: jx). eexists. split; [exact eq_refl || reflexivity|]. split; [|split; [|split; [|split; [|split]]]].
    + unfold infer_indices. cbn [p_shape p_axis0 p_strides p_start shape_to_size tl]. change (-1 <? 0) with true. cbn iota. rewrite J1. reflexivity.
    + cbn [map rmap]. rewrite (back_ok sh jx J2). cbn [back to_sidx]. unfold mk_slice. cbn [value_or]. rewrite S0. cbn [rbind]. destruct s; reflexivity.
    + unfold basic_new. rewrite (parse_join _ _ _ _ (Parsed (-1 :: p_shape q') (sstep s * s0 :: p_strides q') (p_start q') (Some s)) L').
      2:{ change (-1 <? 0) with true. cbn [combine parse_loop]. rewrite S0, S1, Q'. reflexivity. }
      cbn [rbind p_shape p_strides]. rewrite Q1, J3, <- E1.
      assert (Es : p_shape q' = p_shape q) by congruence. assert (Ee : elements q' = elements q) by congruence.
      rewrite (contig_rows (p_shape q) (sstep s * s0) (p_strides q) (p_strides q')), C; [reflexivity| | | |].
      * eapply parse_len, Q.
      * rewrite <- Es. eapply parse_len, Q'.
      * now rewrite E1.
      * apply elements_offsets; auto; [now rewrite E1|eapply strides_8; [apply packed_axes_8, K|eassumption]..].
    + reflexivity.
    + reflexivity.
    + intros n. cbn [selected]. now rewrite J4.
  - destruct I as (I1 & I2 & I3 & I4). pose proof (prod_dims sh I1 I2) as B. pose proof (static_size sh I1 I2) as SZ.
    assert (B0 : Forall (fun d => 0 <= d <= SMAX) sh) by (eapply Forall_impl; [|exact B]; cbn; intros; lia).
    pose proof (strides_packed sh) as K. destruct (C36_selects _ _ _ _ _ SZ K B0 P) as (Ha & E1 & E2).
    destruct (Z.ltb_spec (shape_to_size sh) 0); [lia|].
    destruct (infer_back _ _ _ _ Ha K I3 B PL) as (jx & J1 & J2 & J3 & J4).
    destruct (parse_ok sh (shape_to_strides sh) jx J2 K B0) as (q' & Q' & Q1 & Q2 & _ & Q3).
    assert (Es : p_shape q' = p_shape p) by congruence. assert (Ee : elements q' = elements p) by congruence.
    exists jx, (q', b). split; [reflexivity|]. split; [|split; [|split; [|split; [|split]]]].
    + unfold infer_indices. destruct (Z.ltb_spec (shape_to_size (p_shape p)) 0) as [X|_]; [exfalso|exact J1].
      assert (0 <= shape_to_size (p_shape p)); [|lia]. apply static_size; rewrite E1; auto.
      rewrite <- (selected_length sh ix Ha).
      assert (M : forall s i, Forall (fun d => 1 <= d) s -> Z.of_nat (length (selected s i)) <= prod s).
      { clear. induction s as [|d s IH]; intros [|i r] F; cbn [selected length prod]; try lia.
        - inversion F; subst. assert (P : forall l, Forall (fun d => 1 <= d) l -> 1 <= prod l) by (induction 1; cbn [prod]; nia). specialize (P s H2). nia.
        - inversion F; subst. assert (G : forall l, Z.of_nat (length (flat_map (fun x => map (fun o => x * prod s + o) (selected s r)) l)) = Z.of_nat (length l) * Z.of_nat (length (selected s r))).
          { induction l as [|a l IH']; [reflexivity|]. cbn [flat_map length]. rewrite app_length, map_length, Nat2Z.inj_add, IH'. lia. }
          rewrite G. specialize (IH r H2). assert (Lc : Z.of_nat (length (chosen d i)) <= d).
          { destruct i as [z|sl]; cbn [chosen length]; [lia|]. match goal with |- Z.of_nat (length (filter ?f _)) <= _ => pose proof (filter_le f (zseq d)) as X end. unfold zseq in X at 2. rewrite map_length, seq_length in X. lia. }
          nia. }
      specialize (M sh ix I1). lia.
    + now apply back_ok with (sh := sh).
    + unfold basic_new. rewrite (parse_join _ _ _ _ q').
      2:{ apply acc_len in J2. lia. }
      2:{ destruct (Z.ltb_spec (shape_to_size sh) 0); [lia|]. exact Q'. }
      cbn [rbind]. rewrite Es. rewrite (contig_static (p_shape p) (p_strides p) (p_strides q')), C; [reflexivity| | | |].
      * eapply parse_len, PL.
      * rewrite <- Es. eapply parse_len, Q'.
      * now rewrite E1.
      * apply elements_offsets; auto; [now rewrite E1|eapply strides_8; [apply packed_axes_8, K|eassumption]..].
    + exact Es.
    + reflexivity.
    + intros n. now rewrite J4.
Qed.
