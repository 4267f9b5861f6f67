From Verif Require Import Base SliceModel ShapeModel ShapeSpec ShapeProofs.
Local Open Scope Z_scope.

Lemma contig_layout shape strides : length shape = length strides -> Forall (fun d => 0 <= d) shape ->
  is_contiguous shape strides = Some true -> layout shape strides.
Proof.
  intros L HP H. apply layout_rev; [exact L|]. intros loc R.
  apply (contig_sound _ itemsize); auto. apply Forall_rev. now apply Forall_combine_l.
Qed.

Lemma layout_contig shape strides : length shape = length strides -> Forall (fun d => 0 < d) shape ->
  layout shape strides -> is_contiguous shape strides = Some true.
Proof.
  intros L HP H. apply contig_complete.
  - apply Forall_rev. now apply (Forall_combine_l (fun d => 0 < d)).
  - apply layout_rev; auto.
Qed.

Lemma prod_rev_fst (shape strides : list Z) : length shape = length strides ->
  prod (map fst (rev (combine shape strides))) = prod shape.
Proof.
  revert strides; induction shape as [|d sh IH]; intros [|s st] L; try discriminate L; auto.
  cbn [combine rev]. rewrite map_app. cbn in L.
  assert (P : forall l z, prod (l ++ [z]) = prod l * z) by (induction l as [|x l I]; intros z; cbn [app prod]; [lia|rewrite I; lia]).
  cbn [map fst]. rewrite P, IH by lia. cbn [prod]. lia.
Qed.

Lemma contig_dynamic sh s st : length sh = length st -> Forall (fun d => 0 < d) sh ->
  (is_contiguous (-1 :: sh) (s :: st) = Some true <-> forall n, 0 <= n -> layout (n :: sh) (s :: st)).
Proof.
  intros L HP. unfold is_contiguous. cbn [combine rev].
  assert (HP0 : Forall (fun d => 0 <= d) sh) by (eapply Forall_impl; [|exact HP]; cbn; lia).
  rewrite contig_snoc_dyn by (apply Forall_rev; now apply Forall_combine_l).
  assert (NZ : existsb (fun a : Z * Z => fst a =? 0) (rev (combine sh st)) = false).
  { destruct (existsb _ _) eqn:E; [|reflexivity]. apply existsb_exists in E. destruct E as [[d t] [I Z]].
    apply in_rev in I. apply in_combine_l in I. rewrite Forall_forall in HP. specialize (HP _ I). cbn in Z. lia. }
  rewrite NZ, prod_rev_fst by exact L. change (contig (rev (combine sh st)) itemsize) with (is_contiguous sh st).
  split.
  - destruct (is_contiguous sh st) as [[|]|] eqn:E; try discriminate.
    intros H n Hn idx R. inversion R as [|d i sh' t Hi HR]; subst.
    assert (H' : (s =? itemsize * prod sh) = true) by congruence.
    apply Z.eqb_eq in H'. unfold itemsize in H'.
    rewrite rank_cons by (apply in_range_len; exact HR). cbn [offset].
    rewrite (contig_layout _ _ L HP0 E _ HR), H'. ring.
  - intros H.
    assert (E : is_contiguous sh st = Some true).
    { apply layout_contig; auto. intros idx R.
      assert (R1 : in_range (1 :: sh) (0 :: idx)) by (constructor; [lia|exact R]).
      specialize (H 1 ltac:(lia) _ R1). rewrite rank_cons in H by (apply in_range_len; exact R).
      cbn [offset] in H. lia. }
    rewrite E. f_equal. apply Z.eqb_eq. unfold itemsize.
    destruct (rank_surj sh 0 HP) as [idx [R E0]]; [split; [lia|]; apply prod_pos; exact HP|].
    assert (R1 : in_range (2 :: sh) (1 :: idx)) by (constructor; [lia|exact R]).
    pose proof (H 2 ltac:(lia) _ R1) as H2. rewrite rank_cons in H2 by (apply in_range_len; exact R).
    cbn [offset] in H2. rewrite (contig_layout _ _ L HP0 E _ R) in H2. lia.
Qed.

(** * Iteration *)
Lemma inc1_loop_spec axes loc i0 o lc c : rin axes loc -> inc1_loop axes loc = (o, lc, c) ->
  rin axes lc /\ rrank axes lc (i0 + if c then 1 else 0) = rrank axes loc i0 + 1 /\
  roff axes lc = roff axes loc + o.
Proof.
  intros R; revert o lc c; induction R as [|[d s] l ax loc Hl R IH]; intros o lc c E; cbn [inc1_loop] in E.
  - injection E as <- <- <-. cbn. split; [constructor|]. lia.
  - cbn [fst] in Hl. destruct (Z.ltb_spec (l + 1) d).
    + injection E as <- <- <-. split; [constructor; [cbn; lia|exact R]|]. cbn [rrank roff].
      rewrite Z.add_0_r. lia.
    + destruct (inc1_loop ax loc) as [[o' lc'] c'] eqn:E'. injection E as <- <- <-.
      destruct (IH _ _ _ eq_refl) as [R' [E1 E2]]. split; [constructor; [cbn; lia|exact R']|].
      cbn [rrank roff]. rewrite E1, E2. assert (d = l + 1) by lia. subst. split; ring.
Qed.

Lemma dec1_loop_spec axes loc i0 o lc c : rin axes loc -> dec1_loop axes loc = (o, lc, c) ->
  rin axes lc /\ rrank axes lc (i0 + if c then -1 else 0) = rrank axes loc i0 - 1 /\
  roff axes lc = roff axes loc + o.
Proof.
  intros R; revert o lc c; induction R as [|[d s] l ax loc Hl R IH]; intros o lc c E; cbn [dec1_loop] in E.
  - injection E as <- <- <-. cbn. split; [constructor|]. lia.
  - cbn [fst] in Hl. destruct (Z.leb_spec 0 (l - 1)).
    + injection E as <- <- <-. split; [constructor; [cbn; lia|exact R]|]. cbn [rrank roff].
      rewrite Z.add_0_r. lia.
    + destruct (dec1_loop ax loc) as [[o' lc'] c'] eqn:E'. injection E as <- <- <-.
      destruct (IH _ _ _ eq_refl) as [R' [E1 E2]]. split; [constructor; [cbn; lia|exact R']|].
      cbn [rrank roff]. rewrite E1, E2. assert (l = 0) by lia. subst. split; ring.
Qed.

Lemma inc_loop_spec axes loc i0 q : rin axes loc -> exists o lc q' c,
  inc_loop axes loc q = Some (o, lc, q', c) /\ rin axes lc /\
  rrank axes lc (i0 + if c then q' else 0) = rrank axes loc i0 + q /\
  roff axes lc = roff axes loc + o.
Proof.
  intros R; revert q; induction R as [|[d s] l ax loc Hl R IH]; intros q; cbn [inc_loop].
  - exists 0, [], q, true. split; [reflexivity|]. split; [constructor|]. cbn. lia.
  - cbn [fst] in Hl.
    set (q1 := if l =? 0 then q else q + l). set (o1 := if l =? 0 then 0 else - (l * s)).
    assert (Eq : q1 = q + l) by (unfold q1; destruct (Z.eqb_spec l 0); lia).
    assert (Eo : o1 = - (l * s)) by (unfold o1; destruct (Z.eqb_spec l 0); subst; lia).
    clearbody q1 o1. destruct (Z.eqb_spec d 0); [lia|]. cbv zeta.
    set (q3 := if Z.rem q1 d <? 0 then Z.quot q1 d - 1 else Z.quot q1 d).
    set (r3 := if Z.rem q1 d <? 0 then Z.rem q1 d + d else Z.rem q1 d).
    assert (D : q1 = d * q3 + r3 /\ 0 <= r3 < d).
    { pose proof (Z.quot_rem q1 d ltac:(lia)) as QR.
      pose proof (Z.rem_bound_abs q1 d ltac:(lia)) as RB.
      unfold q3, r3. destruct (Z.ltb_spec (Z.rem q1 d) 0); lia. }
    clearbody q3 r3. destruct D as [D1 D2].
    destruct (Z.eqb_spec q3 0) as [->|].
    + exists (o1 + r3 * s), (r3 :: loc), 0, false. split; [reflexivity|].
      split; [constructor; [cbn; lia|exact R]|]. cbn [rrank roff]. rewrite Z.add_0_r. lia.
    + destruct (IH q3) as [o [lc [q' [c [E [R' [E1 E2]]]]]]]. rewrite E.
      exists (o1 + r3 * s + o), (r3 :: lc), q', c. split; [reflexivity|].
      split; [constructor; [cbn; lia|exact R']|]. cbn [rrank roff]. rewrite E1, E2. lia.
Qed.

(** The iterator stands on the element of rank [n]; everything innermost first. *)
Definition rpoints (axes : list (Z * Z)) (s0 buff : Z) (it : iter) (n : Z) : Prop :=
  exists loc i0, rin axes loc /\ rrank axes loc i0 = n /\
    8 * (it_ptr it - buff) = roff axes loc + i0 * s0 /\
    it_shape it = Some (ShapeInfo axes (Some s0) loc).

Definition mult8 (axes : list (Z * Z)) : Prop := Forall (fun a => (8 | snd a)) axes.

Lemma roff_mult8 axes loc : mult8 axes -> (8 | roff axes loc).
Proof.
  intros H; revert loc; induction H as [|[d s] ax Hs H IH]; intros [|l loc]; cbn [roff]; try apply Z.divide_0_r.
  apply Z.divide_add_r; [|apply IH]. now apply Z.divide_mul_r.
Qed.

Lemma quot8 o : (8 | o) -> 8 * Z.quot o 8 = o.
Proof. intros [k ->]. rewrite Z.quot_mul by lia. lia. Qed.

Lemma step_ok axes s0 buff it n loc i0 o lc i1 :
  mult8 axes -> (8 | s0) ->
  8 * (it_ptr it - buff) = roff axes loc + i0 * s0 ->
  rin axes lc -> rrank axes lc i1 = n -> roff axes lc = roff axes loc + o ->
  rpoints axes s0 buff
    {| it_ptr := it_ptr it + Z.quot (o + (i1 - i0) * s0) itemsize;
       it_shape := Some (ShapeInfo axes (Some s0) lc) |} n.
Proof.
  intros M M0 P R N O. exists lc, i1. split; [exact R|]. split; [exact N|]. split; [|reflexivity].
  cbn [it_ptr].
  assert (D : (8 | o + (i1 - i0) * s0)).
  { apply Z.divide_add_r; [|now apply Z.divide_mul_r].
    replace o with (roff axes lc - roff axes loc) by lia.
    apply Z.divide_sub_r; now apply roff_mult8. }
  apply quot8 in D. unfold itemsize in *.
  replace (8 * (it_ptr it + Z.quot (o + (i1 - i0) * s0) 8 - buff))
    with (8 * (it_ptr it - buff) + 8 * Z.quot (o + (i1 - i0) * s0) 8) by lia.
  rewrite D, P, O. ring.
Qed.

Lemma it_inc_points axes s0 buff it n : mult8 axes -> (8 | s0) ->
  rpoints axes s0 buff it n -> rpoints axes s0 buff (it_inc it) (n + 1).
Proof.
  intros M M0 [loc [i0 [R [N [P S]]]]]. unfold it_inc. rewrite S. unfold increment1. cbn [si_axes si_s0 si_loc].
  destruct (inc1_loop axes loc) as [[o lc] c] eqn:E.
  destruct (inc1_loop_spec _ _ i0 _ _ _ R E) as [R' [E1 E2]].
  unfold axis0. cbn [si_s0].
  replace (o + (if c then 1 * s0 else 0)) with (o + ((i0 + if c then 1 else 0) - i0) * s0) by (destruct c; ring).
  eapply step_ok; eauto. lia.
Qed.

Lemma it_dec_points axes s0 buff it n : mult8 axes -> (8 | s0) ->
  rpoints axes s0 buff it n -> rpoints axes s0 buff (it_dec it) (n - 1).
Proof.
  intros M M0 [loc [i0 [R [N [P S]]]]]. unfold it_dec. rewrite S. unfold decrement1. cbn [si_axes si_s0 si_loc].
  destruct (dec1_loop axes loc) as [[o lc] c] eqn:E.
  destruct (dec1_loop_spec _ _ i0 _ _ _ R E) as [R' [E1 E2]].
  unfold axis0. cbn [si_s0].
  replace (o + (if c then -1 * s0 else 0)) with (o + ((i0 + if c then -1 else 0) - i0) * s0) by (destruct c; ring).
  eapply step_ok; eauto. lia.
Qed.

Lemma it_add_points axes s0 buff it n m : mult8 axes -> (8 | s0) ->
  rpoints axes s0 buff it n -> exists it', it_add it m = Some it' /\ rpoints axes s0 buff it' (n + m).
Proof.
  intros M M0 HP. pose proof HP as [loc [i0 [R [N [P S]]]]]. unfold it_add. rewrite S. unfold increment.
  destruct (Z.eqb_spec m 0) as [->|].
  { exists it. split.
    - f_equal. destruct it as [p q]. cbn [it_ptr it_shape] in *. subst q. f_equal. change (Z.quot 0 itemsize) with 0. lia.
    - now rewrite Z.add_0_r. }
  destruct (Z.eqb_spec m 1) as [->|].
  { pose proof (it_inc_points _ _ _ _ _ M M0 HP) as Q. unfold it_inc in Q. rewrite S in Q.
    destruct (increment1 _) as [o si]. eauto. }
  destruct (Z.eqb_spec m (-1)) as [->|].
  { pose proof (it_dec_points _ _ _ _ _ M M0 HP) as Q. unfold it_dec in Q. rewrite S in Q.
    destruct (decrement1 _) as [o si]. eexists. split; [reflexivity|]. exact Q. }
  cbn [si_axes si_s0 si_loc].
  destruct (inc_loop_spec _ _ i0 m R) as [o [lc [q' [c [E [R' [E1 E2]]]]]]]. rewrite E.
  eexists. split; [reflexivity|]. unfold axis0. cbn [si_s0].
  replace (o + (if c then q' * s0 else 0)) with (o + ((i0 + if c then q' else 0) - i0) * s0) by (destruct c; ring).
  eapply step_ok; eauto. lia.
Qed.

(** Uniqueness: an iterator state is determined by its rank. *)
Lemma rrank_inj axes : forall la lb i0 j0, rin axes la -> rin axes lb ->
  rrank axes la i0 = rrank axes lb j0 -> la = lb /\ i0 = j0.
Proof.
  induction axes as [|[d s] ax IH]; intros la lb i0 j0 Ra Rb E; inversion Ra; inversion Rb; subst.
  - cbn in E. auto.
  - cbn [rrank fst] in *.
    assert (E' : rrank ax l' i0 = rrank ax l'0 j0) by nia.
    assert (y = y0) by (rewrite E' in E; lia). subst.
    destruct (IH l' l'0 i0 j0) as [-> ->]; auto.
Qed.

Lemma rpoints_inj axes s0 buff a b n : rpoints axes s0 buff a n -> rpoints axes s0 buff b n -> a = b.
Proof.
  intros [la [i [Ra [Na [Pa Sa]]]]] [lb [j [Rb [Nb [Pb Sb]]]]].
  destruct (rrank_inj axes la lb i j) as [-> ->]; auto; [congruence|].
  destruct a as [pa qa], b as [pb qb]. cbn [it_ptr it_shape] in *. subst. f_equal. lia.
Qed.

(** * Distance *)
Lemma F2_len {A B} (P : A -> B -> Prop) l m : Forall2 P l m -> length l = length m.
Proof. induction 1; cbn; auto. Qed.

Lemma offset_width sh st a b : length sh = length st -> in_range sh a -> in_range sh b ->
  Z.abs (offset st a - offset st b) <= span sh st.
Proof.
  intros L Ra; revert st b L; induction Ra as [|d l sh la Hl Ra IH]; intros [|s st] b L Rb; try discriminate L;
    inversion Rb as [|d' m sh' lb Hm Rb']; subst; cbn [offset span].
  - lia.
  - cbn in L. specialize (IH st _ ltac:(lia) Rb').
    assert (Z.abs ((l - m) * s) <= (d - 1) * Z.abs s) by (rewrite Z.abs_mul; nia). lia.
Qed.

Lemma offset_inj sh st a b : length sh = length st -> in_range sh a -> in_range sh b -> spread sh st ->
  offset st a = offset st b -> a = b.
Proof.
  intros L Ra; revert st b L; induction Ra as [|d l sh la Hl Ra IH]; intros [|s st] b L Rb S E; try discriminate L;
    inversion Rb as [|d' m sh' lb Hm Rb']; subst; auto.
  cbn [offset spread] in *. cbn in L. destruct S as [S1 S2].
  pose proof (offset_width sh st la lb ltac:(lia) Ra Rb') as W.
  assert (l = m) by nia. subst. f_equal. apply (IH st); auto. lia.
Qed.

Lemma offset_inj_tl sh st a b : length sh = length st -> in_range_tl sh a -> in_range_tl sh b -> spread sh st ->
  offset st a = offset st b -> a = b.
Proof.
  intros L [La Ra] [Lb Rb] S E. destruct sh as [|d sh], st as [|s st]; try discriminate L.
  - destruct a, b; try discriminate; reflexivity.
  - destruct a as [|i a], b as [|j b]; try discriminate. cbn [tl] in *. cbn [offset spread] in *. cbn in L.
    destruct S as [S1 S2]. pose proof (offset_width sh st a b ltac:(lia) Ra Rb) as W.
    assert (i = j) by nia. subst. f_equal. apply (offset_inj sh st); auto. lia.
Qed.

Lemma rrank_shift axes loc i0 : length axes = length loc ->
  rrank axes loc i0 = rrank axes loc 0 + i0 * prod (map fst axes).
Proof.
  revert loc; induction axes as [|[d s] ax IH]; intros [|l loc] L; try discriminate L; cbn [rrank map fst prod].
  - lia.
  - rewrite IH by (cbn in L; lia). ring.
Qed.

Lemma diff_loop_spec axes la lb incs : mult8 axes -> rin axes la -> rin axes lb -> exists o ta tb,
  diff_loop axes la lb incs = (o, ta, tb, incs * prod (map fst axes)) /\
  o = incs * (rrank axes la 0 - rrank axes lb 0) /\
  8 * ta = - roff axes la /\ 8 * tb = - roff axes lb.
Proof.
  intros M Ra; revert lb incs M; induction Ra as [|[d s] l ax la Hl Ra IH]; intros lb incs M Rb;
    inversion Rb as [|a' m ax' lb' Hm Rb']; subst; cbn [diff_loop rrank roff map fst prod].
  - exists 0, 0, 0. split; [f_equal; lia|]. lia.
  - inversion M as [|x y D M']; subst. cbn [snd] in D. apply quot8 in D.
    destruct (IH lb' (incs * d) M' Rb') as [o [ta [tb [E [Eo [Ea Eb]]]]]]. rewrite E.
    exists (o - m * incs + l * incs), (ta - l * Z.quot s itemsize), (tb - m * Z.quot s itemsize).
    split; [f_equal; ring|]. split; [rewrite Eo; ring|]. unfold itemsize.
    replace (8 * (ta - l * Z.quot s 8)) with (8 * ta - l * (8 * Z.quot s 8)) by ring.
    replace (8 * (tb - m * Z.quot s 8)) with (8 * tb - m * (8 * Z.quot s 8)) by ring.
    rewrite D, Ea, Eb. split; ring.
Qed.

Lemma it_diff_ok axes s0 buff a b n m : mult8 axes -> (8 | s0) -> s0 <> 0 ->
  rpoints axes s0 buff a n -> rpoints axes s0 buff b m -> (it_ptr a = it_ptr b -> n = m) ->
  exists a' b', it_diff a b = Some (n - m, a', b').
Proof.
  intros M M0 Z0 [la [i [Ra [Na [Pa Sa]]]]] [lb [j [Rb [Nb [Pb Sb]]]]] HI.
  unfold it_diff. rewrite Sa, Sb. destruct (Z.eqb_spec (it_ptr a) (it_ptr b)) as [E|_].
  { rewrite HI by exact E. rewrite Z.sub_diag. eauto. }
  cbn [si_s0 si_axes si_loc].
  destruct (diff_loop_spec axes la lb 1 M Ra Rb) as [o [ta [tb [E [Eo [Ea Eb]]]]]]. rewrite E.
  destruct M0 as [k ->]. unfold itemsize. rewrite Z.quot_mul by lia.
  destruct (Z.eqb_spec k 0); [lia|].
  assert (D : it_ptr a + ta - (it_ptr b + tb) = (i - j) * k) by lia.
  rewrite D, Z.quot_mul by assumption.
  assert (R : o + (i - j) * (1 * prod (map fst axes)) = n - m).
  { rewrite (rrank_shift axes la i) in Na by (apply (F2_len _ _ _ Ra)).
    rewrite (rrank_shift axes lb j) in Nb by (apply (F2_len _ _ _ Rb)). lia. }
  rewrite R. eauto.
Qed.

(** * In terms of the array's own shape and strides *)
Definition points (shape strides : list Z) (buff : Z) (it : iter) (n : Z) : Prop :=
  exists idx, in_range_tl shape idx /\ rank shape idx = n /\
    8 * (it_ptr it - buff) = offset strides idx.

Section Bridge.
Variables (d0 s0 : Z) (sh st : list Z).
Hypothesis L : length sh = length st.
Notation axes := (rev (combine sh st)).

Lemma rpoints_points buff it n : rpoints axes s0 buff it n -> points (d0 :: sh) (s0 :: st) buff it n.
Proof.
  intros [loc [i0 [R [N [P S]]]]]. destruct (rev_ex loc) as [idx ->].
  apply rin_rev in R; [|exact L]. pose proof (in_range_len _ _ R) as L2.
  exists (i0 :: idx). split; [split; [cbn; lia|exact R]|].
  rewrite rrank_rev in N by auto. rewrite rank_cons by auto. rewrite roff_rev in P by auto.
  cbn [offset]. lia.
Qed.

Lemma begin_rpoints buff : Forall (fun d => 0 < d) sh ->
  rpoints axes s0 buff (it_begin false buff (d0 :: sh) (s0 :: st)) 0.
Proof.
  intros HP. exists (map (fun _ => 0) axes), 0.
  split; [apply rin_zero; apply Forall_rev; now apply (Forall_combine_l (fun d => 0 < d))|].
  rewrite rrank_zero, roff_zero. split; [lia|]. split; [unfold it_begin; cbn [it_ptr]; ring|].
  unfold it_begin, mk_shapeinfo. cbn [it_shape tl hd]. rewrite map_rev.
  assert (E : forall (x y : list Z), length x = length y -> map (fun _ : Z * Z => 0) (combine x y) = map (fun _ => 0) x).
  { induction x as [|u x IH]; intros [|v y] LL; try discriminate LL; cbn [combine map]; auto.
    f_equal. apply IH. cbn in LL. lia. }
  assert (C : forall x : list Z, rev (map (fun _ => 0) x) = map (fun _ => 0) x).
  { induction x as [|u x IH]; auto. cbn [map rev]. rewrite IH. clear.
    induction x as [|v y IH]; auto. cbn [map app]. now rewrite IH. }
  rewrite E by exact L. now rewrite C.
Qed.
End Bridge.
