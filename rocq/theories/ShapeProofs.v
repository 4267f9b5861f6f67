From Verif Require Import Base SliceModel ShapeModel ShapeSpec.
Local Open Scope Z_scope.

(** * Broadcasting *)
Definition pick (a b : Z) : Z := if a =? 1 then b else a.

Lemma nth_nil i (d : Z) : nth i [] d = d.
Proof. destruct i; reflexivity. Qed.

Lemma bcast_some l r s : bcast l r = Some s ->
  length s = Nat.max (length l) (length r) /\
  (forall i, nth i s 1 = pick (nth i l 1) (nth i r 1)) /\
  (forall i, nth i l 1 = nth i r 1 \/ nth i l 1 = 1 \/ nth i r 1 = 1).
Proof.
  revert r s; induction l as [|a l IH]; intros [|b r] s; cbn [bcast]; intros H.
  - injection H as <-. split; [reflexivity|]. split; intros i; rewrite !nth_nil; auto.
  - injection H as <-. split; [reflexivity|]. split; intros i; rewrite !nth_nil; auto.
  - injection H as <-. split; [cbn; lia|]. split; intros i; rewrite !nth_nil; auto.
    unfold pick. destruct (Z.eqb_spec (nth i (a :: l) 1) 1); auto.
  - destruct (bcast l r) as [s'|] eqn:E; [|discriminate].
    destruct (IH _ _ E) as [L [N C]].
    assert (G : exists c, s = c :: s' /\ c = pick a b /\ (a = b \/ a = 1 \/ b = 1)).
    { unfold pick. destruct (Z.eqb_spec a b) as [->|].
      - injection H as <-. eexists; split; [reflexivity|]. destruct (b =? 1); auto.
      - destruct (Z.eqb_spec a 1) as [->|]; [injection H as <-; eexists; eauto|].
        destruct (Z.eqb_spec b 1) as [->|]; [injection H as <-; eexists; eauto|discriminate]. }
    destruct G as [c [-> [Ec Cc]]]. split; [cbn; rewrite L; lia|].
    split; intros [|i]; cbn [nth]; auto.
Qed.

Lemma bcast_none l r : bcast l r = None ->
  exists i, nth i l 1 <> nth i r 1 /\ nth i l 1 <> 1 /\ nth i r 1 <> 1.
Proof.
  revert r; induction l as [|a l IH]; intros [|b r]; cbn [bcast]; try discriminate.
  destruct (bcast l r) as [s'|] eqn:E.
  - destruct (Z.eqb_spec a b); [discriminate|]. destruct (Z.eqb_spec a 1); [discriminate|].
    destruct (Z.eqb_spec b 1); [discriminate|]. intros _. exists 0%nat. auto.
  - intros _. destruct (IH _ E) as [i H]. exists (S i). exact H.
Qed.

Lemma broadcast_ok l r : compatible l r -> exists s, broadcast_shape l r = Ok s /\ is_broadcast l r s.
Proof.
  intros H. unfold broadcast_shape. destruct (bcast (rev l) (rev r)) as [s|] eqn:E.
  - exists (rev s). split; [reflexivity|]. destruct (bcast_some _ _ _ E) as [L [N _]].
    split; [rewrite rev_length; rewrite !rev_length in L; exact L|].
    intros i. unfold dimr. rewrite rev_involutive. apply N.
  - destruct (bcast_none _ _ E) as [i C]. specialize (H i). unfold dimr in H. tauto.
Qed.

Lemma broadcast_bad l r : ~ compatible l r -> broadcast_shape l r = Throw.
Proof.
  intros H. unfold broadcast_shape. destruct (bcast (rev l) (rev r)) as [s|] eqn:E; [|reflexivity].
  exfalso. apply H. intros i. apply (bcast_some _ _ _ E).
Qed.

Lemma bcast_comm l r : bcast l r = bcast r l.
Proof.
  revert r; induction l as [|a l IH]; intros [|b r]; cbn [bcast]; auto.
  rewrite (IH r). destruct (bcast r l); auto.
  destruct (Z.eqb_spec a b) as [->|]; [now rewrite Z.eqb_refl|].
  destruct (Z.eqb_spec b a); [congruence|].
  destruct (Z.eqb_spec a 1), (Z.eqb_spec b 1); auto; congruence.
Qed.

Lemma bcast_idem l : bcast l l = Some l.
Proof. induction l as [|a l IH]; cbn [bcast]; auto. now rewrite IH, Z.eqb_refl. Qed.

Definition ob {A B} (o : option A) (f : A -> option B) := match o with Some a => f a | None => None end.

Definition dop (a b : Z) : option Z :=
  if a =? b then Some a else if a =? 1 then Some b else if b =? 1 then Some a else None.
Lemma dop_assoc a b c : ob (dop a b) (fun x => dop x c) = ob (dop b c) (fun x => dop a x).
Proof.
  unfold dop.
  destruct (Z.eqb_spec a b), (Z.eqb_spec b c), (Z.eqb_spec a 1), (Z.eqb_spec b 1), (Z.eqb_spec c 1);
    subst; try congruence; cbn [ob]; rewrite ?Z.eqb_refl; try reflexivity;
    repeat match goal with |- context [?x =? ?y] => destruct (Z.eqb_spec x y) end;
    subst; try congruence; reflexivity.
Qed.
Lemma bcast_cons a l b r : bcast (a :: l) (b :: r) =
  ob (bcast l r) (fun s => ob (dop a b) (fun c => Some (c :: s))).
Proof.
  cbn [bcast]. unfold dop. destruct (bcast l r); cbn [ob]; auto.
  destruct (a =? b); [reflexivity|]. destruct (a =? 1); [reflexivity|]. destruct (b =? 1); reflexivity.
Qed.
Lemma bcast_nil_l r : bcast [] r = Some r.
Proof. reflexivity. Qed.
Lemma bcast_nil_r l : bcast l [] = Some l.
Proof. destruct l; reflexivity. Qed.

Lemma bcast_assoc l r t : ob (bcast l r) (fun s => bcast s t) = ob (bcast r t) (fun s => bcast l s).
Proof.
  revert r t; induction l as [|a l IH]; intros [|b r] [|c t].
  1-7: rewrite ?bcast_nil_l, ?bcast_nil_r; cbn [ob]; rewrite ?bcast_nil_l, ?bcast_nil_r; auto.
  - destruct (bcast (b :: r) (c :: t)); reflexivity.
  - destruct (bcast (a :: l) (b :: r)) as [s|]; cbn [ob]; rewrite ?bcast_nil_r; reflexivity.
  - transitivity (ob (ob (bcast l r) (fun s => bcast s t))
                    (fun s => ob (ob (dop a b) (fun x => dop x c)) (fun z => Some (z :: s)))).
    { rewrite bcast_cons. destruct (bcast l r) as [s|]; cbn [ob]; auto.
      destruct (dop a b); cbn [ob]; [apply bcast_cons|]. destruct (bcast s t); reflexivity. }
    rewrite IH, dop_assoc. rewrite bcast_cons. destruct (bcast r t) as [s|]; cbn [ob]; auto.
    destruct (dop b c); cbn [ob]; [symmetry; apply bcast_cons|]. destruct (bcast l s); reflexivity.
Qed.

(** * Flat and multi-dimensional indices *)
Lemma rank_acc shape idx a : length shape = length idx ->
  fold_left (fun acc p => acc * fst p + snd p) (combine shape idx) a = a * prod shape + rank shape idx.
Proof.
  unfold rank. revert idx a; induction shape as [|d sh IH]; intros [|i idx] a L; try discriminate L.
  - cbn. lia.
  - cbn [combine fold_left fst snd prod]. rewrite (IH idx (a * d + i)), (IH idx (0 * d + i)) by (cbn in L; lia). lia.
Qed.

Lemma rank_cons d shape i idx : length shape = length idx ->
  rank (d :: shape) (i :: idx) = i * prod shape + rank shape idx.
Proof. intros L. unfold rank at 1. cbn [combine fold_left fst snd]. rewrite rank_acc by exact L. lia. Qed.

Lemma in_range_len shape idx : in_range shape idx -> length shape = length idx.
Proof. induction 1; cbn; auto. Qed.

Lemma rank_bounds shape idx : in_range shape idx -> 0 <= rank shape idx < prod shape.
Proof.
  induction 1 as [|d i sh idx H HF IH]; [cbn; lia|].
  rewrite rank_cons by (apply in_range_len; exact HF). cbn [prod]. nia.
Qed.

Lemma rank_inj shape a b : in_range shape a -> in_range shape b -> rank shape a = rank shape b -> a = b.
Proof.
  intros Ha; revert b; induction Ha as [|d i sh idx H HF IH]; intros b Hb E.
  - inversion Hb. reflexivity.
  - inversion Hb as [|d' j sh' idx' H' HF']; subst.
    rewrite !rank_cons in E by (apply in_range_len; assumption).
    pose proof (rank_bounds _ _ HF). pose proof (rank_bounds _ _ HF').
    assert (i = j) by nia. subst. f_equal. apply IH; auto. lia.
Qed.

Lemma rank_surj shape n : Forall (fun d => 0 < d) shape -> 0 <= n < prod shape ->
  exists idx, in_range shape idx /\ rank shape idx = n.
Proof.
  intros H; revert n; induction H as [|d sh Hd HF IH]; intros n Hn; cbn [prod] in Hn.
  - exists []. split; [constructor|]. cbn. lia.
  - assert (0 < prod sh) by (clear - HF; induction HF; cbn [prod]; nia).
    destruct (IH (n mod prod sh)) as [idx [R E]]; [apply Z.mod_pos_bound; lia|].
    exists (n / prod sh :: idx). split.
    + constructor; [|exact R]. split; [apply Z.div_pos; lia|]. apply Z.div_lt_upper_bound; nia.
    + rewrite rank_cons by (apply in_range_len; exact R). rewrite E.
      pose proof (Z.div_mod n (prod sh)). lia.
Qed.

Lemma prod_pos shape : Forall (fun d => 0 < d) shape -> 0 < prod shape.
Proof. induction 1; cbn [prod]; nia. Qed.

Lemma fold_mul shape a : fold_left Z.mul shape a = a * prod shape.
Proof. revert a; induction shape as [|d t IH]; intros a; cbn [fold_left prod]; [lia|]. rewrite IH. lia. Qed.

Lemma strides_cons d sh : shape_to_strides (d :: sh) = 8 * prod sh :: shape_to_strides sh.
Proof.
  revert d; induction sh as [|e sh IH]; intros d; [reflexivity|].
  change (shape_to_strides (d :: e :: sh)) with
    (hd 0 (shape_to_strides (e :: sh)) * e :: shape_to_strides (e :: sh)).
  rewrite IH. cbn [hd prod]. f_equal. lia.
Qed.

Lemma to_u_id z : 0 <= z <= SMAX -> to_u z = z.
Proof. intros H. unfold to_u. apply Z.mod_small. unfold SMAX, UMOD in *. lia. Qed.
Lemma to_s_id z : 0 <= z <= SMAX -> to_s z = z.
Proof.
  intros H. unfold to_s. rewrite Z.mod_small by (unfold SMAX, UMOD in *; lia).
  destruct (Z.ltb_spec z (UMOD / 2)) as [|L]; [reflexivity|].
  change (UMOD / 2) with 9223372036854775808 in L. unfold SMAX in H. lia.
Qed.

Lemma to_u_mul8 p : 0 < p -> 8 * p <= SMAX -> to_u (8 * p) / itemsize = p.
Proof.
  intros Hp Hb. rewrite to_u_id by lia. unfold itemsize. rewrite Z.mul_comm. apply Z.div_mul. lia.
Qed.

Lemma unravel_ok shape idx : Forall (fun d => 0 < d) shape -> 8 * prod shape <= SMAX ->
  in_range shape idx -> unravel_index (shape_to_strides shape) (rank shape idx) = Ok idx.
Proof.
  intros HP HB HR; revert HP HB; induction HR as [|d i sh idx H HF IH]; intros HP HB; [reflexivity|].
  inversion HP as [|d' sh' Hd HP']; subst. pose proof (prod_pos _ HP') as Pp.
  cbn [prod] in HB.
  rewrite strides_cons, rank_cons by (apply in_range_len; exact HF). cbn [unravel_index].
  rewrite to_u_mul8 by nia. destruct (Z.eqb_spec (prod sh) 0); [lia|].
  pose proof (rank_bounds _ _ HF) as Rb.
  assert (0 <= i * prod sh + rank sh idx <= SMAX) by nia.
  rewrite to_u_id by assumption.
  assert (E1 : (i * prod sh + rank sh idx) mod prod sh = rank sh idx).
  { rewrite Z.add_comm, Z.mod_add by lia. apply Z.mod_small. lia. }
  assert (E2 : (i * prod sh + rank sh idx) / prod sh = i).
  { rewrite Z.add_comm, Z.div_add by lia. rewrite Z.div_small by lia. lia. }
  rewrite E1, E2. rewrite to_s_id by nia. rewrite IH by (auto; nia). cbn [rbind].
  rewrite to_s_id by nia. reflexivity.
Qed.

Lemma ravel_from_ok shape idx f : Forall (fun d => 0 < d) shape ->
  0 <= f -> 8 * (f + prod shape) <= SMAX -> in_range shape idx ->
  ravel_from f (shape_to_strides shape) idx = Ok (f + rank shape idx).
Proof.
  intros HP Hf HB HR; revert f HP Hf HB; induction HR as [|d i sh idx H HF IH]; intros f HP Hf HB.
  - cbn. f_equal. lia.
  - inversion HP as [|d' sh' Hd HP']; subst. pose proof (prod_pos _ HP') as Pp. cbn [prod] in HB.
    rewrite strides_cons, rank_cons by (apply in_range_len; exact HF). cbn [ravel_from].
    unfold schk. destruct (Z.leb_spec SMIN (i * (8 * prod sh))); [|unfold SMIN in *; nia].
    destruct (Z.leb_spec (i * (8 * prod sh)) SMAX); [|nia]. cbn [andb rbind].
    assert (E : to_u (i * (8 * prod sh)) / itemsize = i * prod sh).
    { rewrite to_u_id by nia. unfold itemsize.
      replace (i * (8 * prod sh)) with ((i * prod sh) * 8) by lia. apply Z.div_mul. lia. }
    rewrite E, (to_u_id f), to_s_id by nia. rewrite IH; auto; [|nia|nia].
    f_equal. lia.
Qed.

(** * Contiguity *)
Lemma strides_layout shape : layout shape (shape_to_strides shape).
Proof.
  intros idx R. induction R as [|d i sh idx H HF IH]; [reflexivity|].
  rewrite strides_cons, rank_cons by (apply in_range_len; exact HF). cbn [offset]. rewrite IH. lia.
Qed.

(** Innermost-first versions. *)
Fixpoint rrank (axes : list (Z * Z)) (loc : list Z) (i0 : Z) : Z :=
  match axes, loc with
  | (d, _) :: ax, l :: lc => l + d * rrank ax lc i0
  | _, _ => i0
  end.
Fixpoint roff (axes : list (Z * Z)) (loc : list Z) : Z :=
  match axes, loc with
  | (_, s) :: ax, l :: lc => l * s + roff ax lc
  | _, _ => 0
  end.
Definition rin (axes : list (Z * Z)) (loc : list Z) : Prop := Forall2 (fun a l => 0 <= l < fst a) axes loc.

Lemma rrank_snoc axes loc d s l i0 : length axes = length loc ->
  rrank (axes ++ [(d, s)]) (loc ++ [l]) i0 = rrank axes loc (l + d * i0).
Proof.
  revert loc; induction axes as [|[e t] axes IH]; intros [|m loc] L; try discriminate L; cbn [app rrank]; auto.
  rewrite IH by (cbn in L; lia). reflexivity.
Qed.
Lemma roff_snoc axes loc d s l : length axes = length loc ->
  roff (axes ++ [(d, s)]) (loc ++ [l]) = roff axes loc + l * s.
Proof.
  revert loc; induction axes as [|[e t] axes IH]; intros [|m loc] L; try discriminate L; cbn [app roff]; [lia|].
  rewrite IH by (cbn in L; lia). lia.
Qed.

Lemma combine_len (a b : list Z) : length a = length b -> length (combine a b) = length a.
Proof. intros H. rewrite combine_length. lia. Qed.

Lemma rrank_rev shape strides idx i0 : length shape = length idx -> length shape = length strides ->
  rrank (rev (combine shape strides)) (rev idx) i0 = i0 * prod shape + rank shape idx.
Proof.
  revert strides idx i0; induction shape as [|d sh IH]; intros [|s st] [|i idx] i0 L1 L2;
    try discriminate L1; try discriminate L2.
  - cbn. lia.
  - cbn in L1, L2. cbn [combine rev]. rewrite rrank_snoc.
    + rewrite IH by lia. rewrite rank_cons by lia. cbn [prod]. lia.
    + rewrite !rev_length, combine_len; lia.
Qed.
Lemma roff_rev shape strides idx : length shape = length idx -> length shape = length strides ->
  roff (rev (combine shape strides)) (rev idx) = offset strides idx.
Proof.
  revert strides idx; induction shape as [|d sh IH]; intros [|s st] [|i idx] L1 L2;
    try discriminate L1; try discriminate L2; auto.
  cbn in L1, L2. cbn [combine rev offset]. rewrite roff_snoc.
  - rewrite IH by lia. lia.
  - rewrite !rev_length, combine_len; lia.
Qed.

Lemma Forall2_rev {A B} (P : A -> B -> Prop) l m : Forall2 P l m -> Forall2 P (rev l) (rev m).
Proof. induction 1; cbn; auto. apply Forall2_app; auto. Qed.
Lemma Forall2_rev_inv {A B} (P : A -> B -> Prop) l m : Forall2 P (rev l) (rev m) -> Forall2 P l m.
Proof. intros H. apply Forall2_rev in H. now rewrite !rev_involutive in H. Qed.

Lemma rin_combine shape strides idx : length shape = length strides ->
  (Forall2 (fun (a : Z * Z) l => 0 <= l < fst a) (combine shape strides) idx <-> in_range shape idx).
Proof.
  revert strides idx; induction shape as [|d sh IH]; intros [|s st] idx L; try discriminate L.
  - split; intros H; inversion H; constructor.
  - cbn [combine]. split; intros H; inversion H; subst; constructor; auto; apply (IH st); auto.
Qed.
Lemma rin_rev shape strides idx : length shape = length strides ->
  (rin (rev (combine shape strides)) (rev idx) <-> in_range shape idx).
Proof.
  intros L. rewrite <- (rin_combine _ _ idx L). split; [apply Forall2_rev_inv|apply Forall2_rev].
Qed.

Lemma rev_ex {A} (l : list A) : exists k, l = rev k.
Proof. exists (rev l). now rewrite rev_involutive. Qed.

Lemma layout_rev shape strides : length shape = length strides ->
  (layout shape strides <-> forall loc, rin (rev (combine shape strides)) loc ->
     roff (rev (combine shape strides)) loc = 8 * rrank (rev (combine shape strides)) loc 0).
Proof.
  intros L. split.
  - intros H loc R. destruct (rev_ex loc) as [idx ->]. apply rin_rev in R; [|exact L].
    pose proof (in_range_len _ _ R). rewrite roff_rev, rrank_rev by auto. rewrite H by exact R. lia.
  - intros H idx R. pose proof (in_range_len _ _ R). apply (rin_rev _ strides) in R; [|exact L].
    specialize (H _ R). rewrite roff_rev, rrank_rev in H by auto. lia.
Qed.

(** [contig] is sound for every axis list. *)
Lemma contig_sound axes sd : Forall (fun a => 0 <= fst a) axes -> contig axes sd = Some true ->
  forall loc, rin axes loc -> roff axes loc = sd * rrank axes loc 0.
Proof.
  revert sd; induction axes as [|[d s] ax IH]; intros sd HP H loc R.
  - cbn. lia.
  - inversion R as [|a l ax' lc Hl HR]; subst. cbn [fst] in Hl.
    cbn [contig] in H. inversion HP as [|a ax' H0 HP']; subst. cbn [fst] in H0.
    destruct (Z.leb_spec 0 d); [|lia]. cbn [orb negb] in H.
    destruct (Z.eqb_spec d 0); [lia|]. cbn [roff rrank].
    destruct (Z.eqb_spec d 1) as [->|]; cbn [negb andb] in H.
    + rewrite (IH _ HP' H _ HR). assert (l = 0) by lia. subst. lia.
    + destruct (Z.eqb_spec s sd) as [->|]; cbn [negb] in H; [|discriminate].
      rewrite (IH _ HP' H _ HR). lia.
Qed.

Lemma rin_zero axes : Forall (fun a => 0 < fst a) axes -> rin axes (map (fun _ => 0) axes).
Proof. induction 1; cbn; constructor; auto. lia. Qed.
Lemma roff_zero axes : roff axes (map (fun _ => 0) axes) = 0.
Proof. induction axes as [|[d s] ax IH]; cbn; auto. Qed.
Lemma rrank_zero axes i0 : rrank axes (map (fun _ => 0) axes) i0 = i0 * prod (map fst axes).
Proof. induction axes as [|[d s] ax IH]; cbn [map rrank prod fst]; [lia|]. rewrite IH. lia. Qed.

Lemma contig_complete axes sd : Forall (fun a => 0 < fst a) axes ->
  (forall loc, rin axes loc -> roff axes loc = sd * rrank axes loc 0) -> contig axes sd = Some true.
Proof.
  revert sd; induction axes as [|[d s] ax IH]; intros sd HP H; [reflexivity|].
  inversion HP as [|a ax' H0 HP']; subst. cbn [fst] in H0. cbn [contig].
  destruct (Z.leb_spec 0 d); [|lia]. cbn [orb negb]. destruct (Z.eqb_spec d 0); [lia|].
  assert (T : contig ax (sd * d) = Some true).
  { apply IH; auto. intros loc R.
    assert (E : 0 * s + roff ax loc = sd * (0 + d * rrank ax loc 0)).
    { apply (H (0 :: loc)). constructor; auto. cbn. lia. }
    rewrite Z.mul_0_l, !Z.add_0_l in E. rewrite E. ring. }
  destruct (Z.eqb_spec d 1); cbn [negb andb]; [exact T|].
  assert (s = sd).
  { specialize (H (1 :: map (fun _ => 0) ax)). cbn [roff rrank] in H.
    rewrite roff_zero, rrank_zero in H.
    assert (E : 1 * s + 0 = sd * (1 + d * (0 * prod (map fst ax)))).
    { apply H. constructor; [cbn; lia|]. apply rin_zero; auto. }
    rewrite Z.mul_0_l, Z.mul_0_r in E. lia. }
  subst. rewrite Z.eqb_refl. exact T.
Qed.

Lemma contig_defined axes sd : Forall (fun a => 0 <= fst a) axes -> contig axes sd <> None.
Proof.
  revert sd; induction axes as [|[d s] ax IH]; intros sd HP; [discriminate|].
  inversion HP as [|a ax' H0 HP']; subst. cbn [fst] in H0. cbn [contig].
  destruct (Z.leb_spec 0 d); [|lia]. cbn [orb negb]. destruct (d =? 0); [discriminate|].
  destruct (negb (d =? 1) && negb (s =? sd)); [discriminate|]. auto.
Qed.

Lemma Forall_combine_l (P : Z -> Prop) shape strides : Forall P shape ->
  Forall (fun a : Z * Z => P (fst a)) (combine shape strides).
Proof.
  intros H; revert strides; induction H; intros [|s st]; cbn; constructor; auto.
Qed.

(** The state-dependent axis 0. *)
Lemma contig_snoc_dyn axes s sd : Forall (fun a => 0 <= fst a) axes ->
  contig (axes ++ [(-1, s)]) sd =
  match contig axes sd with
  | Some true => if existsb (fun a => fst a =? 0) axes then Some true
                 else Some (s =? sd * prod (map fst axes))
  | o => o
  end.
Proof.
  intros HP; revert sd; induction HP as [|[d t] ax H0 HP IH]; intros sd.
  - cbn. rewrite Z.mul_1_r. destruct (s =? sd); reflexivity.
  - cbn [fst] in H0. cbn [app contig]. destruct (Z.leb_spec 0 d); [|lia]. cbn [orb negb].
    cbn [existsb fst map prod].
    destruct (Z.eqb_spec d 0); [reflexivity|].
    destruct (negb (d =? 1) && negb (t =? sd)); [reflexivity|].
    rewrite IH. rewrite <- Z.mul_assoc. reflexivity.
Qed.
