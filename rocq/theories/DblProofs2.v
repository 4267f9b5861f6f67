(** Sums and products of whole numbers along histories. *)
From Coq.Floats Require Import SpecFloat.
From Coq Require Import Permutation Lia ZArith Znumtheory.
From Verif Require Import Base SliceModel StateDataModel StateDataSpec BinaryModel QuadModel DblSpec DblModel DblProofs.
Local Open Scope Z_scope.

Lemma whole_nan x z : whole x z -> dnan x = false.
Proof. destruct x; cbn; try reflexivity. contradiction. Qed.

Lemma zsum_app a b : zsum (a ++ b) = zsum a + zsum b.
Proof. induction a as [|x a IH]; unfold zsum in *; cbn [app fold_right] in *; lia. Qed.
Lemma zsum_perm a b : Permutation a b -> zsum a = zsum b.
Proof. induction 1; unfold zsum in *; cbn [fold_right] in *; lia. Qed.
Lemma zabs_app a b : zsum (map Z.abs (a ++ b)) = zsum (map Z.abs a) + zsum (map Z.abs b).
Proof. rewrite map_app. apply zsum_app. Qed.
Lemma zsum_abs a : Z.abs (zsum a) <= zsum (map Z.abs a).
Proof. induction a as [|x a IH]; unfold zsum in *; cbn [map fold_right] in *; lia. Qed.

Lemma grouped_sum xs r : grouped dadd xs r -> forall zs, Forall2 whole xs zs -> small (zsum (map Z.abs zs)) -> whole r (zsum zs).
Proof.
  induction 1 as [x|l l1 l2 x y G1 I1 G2 I2 P]; intros zs W S.
  - inversion W as [|? ? ? ? Wx Wn]; subst. inversion Wn; subst. unfold zsum. cbn [fold_right]. rewrite Z.add_0_r. exact Wx.
  - destruct (Permutation_Forall2 P W) as (zs' & Pz & W'). rewrite (zsum_perm _ _ Pz). rewrite (zsum_perm _ _ (Permutation_map Z.abs Pz)) in S.
    apply Forall2_app_inv_l in W'. destruct W' as (z1 & z2 & W1 & W2 & ->). rewrite zabs_app in S. rewrite zsum_app.
    pose proof (zsum_abs z1). pose proof (zsum_abs z2). unfold small in *. apply add_whole; [apply I1|apply I2| | |]; auto; unfold small; lia.
Qed.

Lemma zsum_lset l : forall i v x, nth_error l i = Some x -> zsum (lset i v l) = zsum l + (v - x).
Proof.
  induction l as [|h t IH]; intros [|i] v x E; try discriminate; cbn [nth_error] in E.
  - injection E as ->. unfold zsum. cbn. lia.
  - specialize (IH i v x E). unfold zsum in *. cbn [lset fold_right] in *. lia.
Qed.
Lemma last_split {X} (l : list X) : l <> [] -> exists p z, l = p ++ [z].
Proof. intros N. destruct (exists_last N) as (p & z & E). eauto. Qed.
Lemma removed_last {X} (l : list X) i x : nth_error l i = Some x -> S i = length l -> l = removelast l ++ [x].
Proof.
  intros E L. destruct (last_split l) as (p & z & ->); [intros ->; destruct i; discriminate|]. rewrite app_length in L. cbn in L.
  rewrite removelast_last. rewrite nth_error_app2 in E by lia. replace (i - length p)%nat with O in E by lia. cbn in E. congruence.
Qed.

Section Sum.
Variables (B : Z) (L : nat) (i0 : Z).
Hypothesis HB : 0 <= B.
Hypothesis HL : Z.abs i0 + Z.of_nat L * B < 2 ^ 53.
Hypothesis H2 : 2 * B < 2 ^ 53.

Lemma abs_bound l : Forall (fun z => Z.abs z <= B) l -> zsum (map Z.abs l) <= Z.of_nat (length l) * B.
Proof. induction 1; unfold zsum in *; cbn [map fold_right length] in *; lia. Qed.
Lemma sum_small l : bounded_by B L l -> small (i0 + zsum l) /\ small (zsum (map Z.abs (i0 :: l))).
Proof.
  intros [Hl F]. pose proof (abs_bound l F). pose proof (zsum_abs l).
  assert (Z.of_nat (length l) * B <= Z.of_nat L * B) by nia. unfold small. unfold zsum in *. cbn [map fold_right] in *.
  assert (0 <= fold_right Z.add 0 (map Z.abs l)) by lia. lia.
Qed.
Lemma entry_small l i x : bounded_by B L l -> nth_error l i = Some x -> small x.
Proof. intros [_ F] E. apply nth_error_In in E. rewrite Forall_forall in F. specialize (F _ E). cbn in F. unfold small. lia. Qed.

Lemma step_sum r l u z l1 : whole r (i0 + zsum l) -> bounded_by B L l -> bounded_by B L l1 -> same_update u z -> replay1 Z.eqb l z = Some l1 ->
  whole (sum1 r u) (i0 + zsum l1).
Proof.
  intros W K K1 (_ & So & Sv) R. unfold replay1 in R. unfold sum1, d_placed, d_removed. destruct (sum_small _ K) as [S0 _]. destruct (sum_small _ K1) as [S1 _].
  destruct (uold z) as [o|], (uval z) as [v|]; cbn [stands] in So, Sv.
  - rewrite (whole_nan _ _ So), (whole_nan _ _ Sv). destruct (nth_error l (uidx z)) as [x|] eqn:E; [|discriminate]. destruct (Z.eqb_spec x o); [subst x|discriminate].
    injection R as <-. rewrite (zsum_lset _ _ _ _ E) in *. 
    assert (Ko : Z.abs o <= B) by (destruct K as [_ F]; apply nth_error_In in E; rewrite Forall_forall in F; exact (F _ E)).
    assert (Kv : Z.abs v <= B).
    { destruct K1 as [_ F]. rewrite Forall_forall in F. apply F. eapply nth_error_In with (n := uidx z). apply nth_error_lset_eq. apply nth_error_Some. congruence. }
    rewrite Z.add_assoc. apply add_whole; auto.
    + apply sub_whole; auto; unfold small; lia.
    + unfold small; lia.
    + rewrite <- Z.add_assoc. exact S1.
  - rewrite (whole_nan _ _ So), Sv. cbn [dnan]. destruct (nth_error l (uidx z)) as [x|] eqn:E; [|discriminate]. destruct (_ && _) eqn:C in R; [|discriminate].
    injection R as <-. apply andb_true_iff in C. destruct C as [C1 C2]. apply Nat.eqb_eq in C1. apply Z.eqb_eq in C2. subst x.
    pose proof (removed_last _ _ _ E C1) as El. assert (Es : zsum l = zsum (removelast l) + o) by (rewrite El at 1; rewrite zsum_app; unfold zsum; cbn; lia).
    replace (i0 + zsum (removelast l)) with (i0 + zsum l - o) in S1 |- * by lia. apply sub_whole; auto. eapply entry_small; [exact K|exact E].
  - rewrite So. cbn [dnan]. destruct (Nat.eqb_spec (uidx z) (length l)); [|discriminate]. injection R as <-.
    rewrite zsum_app in *. unfold zsum at 2 in S1. unfold zsum at 2. cbn [fold_right] in *. rewrite Z.add_0_r in *. rewrite Z.add_assoc in *.
    apply add_whole; auto. eapply (entry_small _ (length l)); [exact K1|]. apply nth_error_snoc.
  - discriminate.
Qed.
Lemma tracks_sum l zs l1 : tracks (bounded_by B L) (fun _ => True) l zs l1 -> forall us r, whole r (i0 + zsum l) -> Forall2 same_update us zs ->
  whole (fold_left sum1 us r) (i0 + zsum l1) /\ bounded_by B L l.
Proof.
  induction 1 as [l K|l u us0 l1 l2 K _ R T IH]; intros us r W F; inversion F as [|? ? ? ? F1 F2]; subst; cbn [fold_left]; [auto|].
  assert (K1 : bounded_by B L l1) by (inversion T; auto). split; [|exact K].
  apply IH; [|exact F2]. eapply step_sum; eauto.
Qed.
Lemma history_sum l mz l1 : history (bounded_by B L) (fun _ => True) l mz l1 -> forall ms d, s_old d = s_val d -> whole (s_val d) (i0 + zsum l) -> Forall2 same_move ms mz ->
  whole (s_val (sum_run d ms)) (i0 + zsum l1).
Proof.
  induction 1 as [l K|l us ms0 l1 l2 T H IH|l us ms0 l1 l2 T H IH]; intros ms d Ed W F; inversion F as [|m ? ? ? F1 F2]; subst; [exact W| |]; destruct F1 as [Ek Fu];
    destruct m as [u|u]; try discriminate Ek; cbn [updates_of] in Fu; unfold sum_run; cbn [fold_left]; fold (sum_run (sum_move d (Keep u)) l0) (sum_run (sum_move d (Undo u)) l0).
  - apply IH; [reflexivity| |exact F2]. cbn. eapply tracks_sum; eauto.
  - apply IH; [reflexivity| |exact F2]. cbn. rewrite Ed. exact W.
Qed.
Lemma init_sum init l xs d : match init with Some i => whole i i0 | None => i0 = 0 end -> Forall2 whole xs l -> bounded_by B L l ->
  sum_init init xs d -> whole (s_val d) (i0 + zsum l) /\ s_old d = s_val d.
Proof.
  intros Hi W K (r & G & ->). split; [|reflexivity]. cbn [s_val]. destruct (sum_small _ K) as [_ S]. destruct init as [i|].
  - change (i0 + zsum l) with (zsum (i0 :: l)). apply (grouped_sum _ _ G); [constructor; auto|exact S].
  - subst i0. rewrite Z.add_0_l. apply (grouped_sum _ _ G); [exact W|]. unfold zsum in *. cbn [map fold_right] in S. exact S.
Qed.
End Sum.

(** Products. *)
Definition zeros (l : list Z) : Z := Z.of_nat (length (filter (fun z => z =? 0) l)).
Lemma zprod_app a b : zprod (a ++ b) = zprod a * zprod b.
Proof. induction a as [|x a IH]; unfold zprod in *; cbn [app fold_right] in *; [lia|]. rewrite IH. lia. Qed.
Lemma zprod_zero l : zprod l = if 0 <? zeros l then 0 else zprod (nonzero l).
Proof.
  induction l as [|x l IH]; [reflexivity|]. unfold zprod, zeros, nonzero in *. cbn [fold_right filter]. destruct (Z.eqb_spec x 0) as [->|N]; cbn [negb length fold_right].
  - destruct (Z.ltb_spec 0 (Z.of_nat (S (length (filter (fun z => z =? 0) l))))); lia.
  - rewrite IH. destruct (_ <? _); lia.
Qed.
Lemma zeros_app a b : zeros (a ++ b) = zeros a + zeros b.
Proof. unfold zeros. rewrite filter_app, app_length. lia. Qed.
Lemma nonzero_app a b : nonzero (a ++ b) = nonzero a ++ nonzero b.
Proof. apply filter_app. Qed.

Section Mul.
Variable i0 : Z.
Lemma small0 : small 0. Proof. unfold small. cbn. lia. Qed.
Lemma eqb0 x z : whole x z -> small z -> deqb x (dlit 0) = (z =? 0).
Proof. intros W S. apply eqb_whole; auto; [apply norm0_whole|]; apply small0. Qed.

Definition MI (st : dbl * Z) (l : list Z) : Prop := whole (fst st) (i0 * zprod (nonzero l)) /\ snd st = zeros l.
Lemma split_at {X} (l : list X) : forall i x, nth_error l i = Some x -> exists a b, l = a ++ x :: b /\ forall v, lset i v l = a ++ v :: b.
Proof.
  induction l as [|h t IH]; intros [|i] x E; try discriminate; cbn [nth_error] in E.
  - injection E as ->. exists [], t. split; reflexivity.
  - destruct (IH i x E) as (a & b & -> & H). exists (h :: a), b. split; [reflexivity|]. intros v. cbn [lset app]. now rewrite H.
Qed.
Lemma nz_cons x b : nonzero (x :: b) = if x =? 0 then nonzero b else x :: nonzero b.
Proof. unfold nonzero. cbn [filter]. now destruct (x =? 0). Qed.
Lemma zeros_cons x b : zeros (x :: b) = (if x =? 0 then 1 else 0) + zeros b.
Proof. unfold zeros. cbn [filter]. destruct (x =? 0); cbn [length]; lia. Qed.
Lemma zp_cons x b : zprod (x :: b) = x * zprod b. Proof. reflexivity. Qed.
Lemma mul_small a b : b <> 0 -> small (a * b) -> small a.
Proof. unfold small. intros N S. rewrite Z.abs_mul in S. assert (1 <= Z.abs b) by lia. nia. Qed.

Lemma step_mul st l u z l1 : MI st l -> (tame i0) l -> (tame i0) l1 -> same_update u z -> divides_only z -> replay1 Z.eqb l z = Some l1 -> MI (mul1 st u) l1.
Proof.
  intros [W C] [K Ks] [K1 Ks1] (_ & So & Sv) D R. unfold replay1 in R. unfold divides_only in D. destruct st as [nz n]. cbn [fst snd] in W, C. subst n.
  unfold mul1, d_placed, d_removed, MI. destruct (uold z) as [o|], (uval z) as [v|]; cbn [stands] in So, Sv; [| | |discriminate].
  - rewrite (whole_nan _ _ So), (whole_nan _ _ Sv). cbn [andb]. destruct (nth_error l (uidx z)) as [x|] eqn:E; [|discriminate]. destruct (Z.eqb_spec x o); [subst x|discriminate].
    injection R as <-. destruct (split_at _ _ _ E) as (a & b & El & Ev). rewrite Ev in *. subst l.
    assert (Sx : small o) by (apply Forall_elt in Ks; exact Ks). assert (Sy : small v) by (apply Forall_elt in Ks1; exact Ks1).
    rewrite (eqb0 _ _ So Sx), (eqb0 _ _ Sv Sy). rewrite !nonzero_app, !zeros_app, !nz_cons, !zeros_cons, !zprod_app in *.
    destruct (Z.eqb_spec o 0) as [->|No], (Z.eqb_spec v 0) as [->|Nv]; cbn [andb fst snd]; rewrite ?zp_cons in *.
    + auto.
    + split; [|lia]. replace (i0 * (zprod (nonzero a) * (v * zprod (nonzero b)))) with (i0 * (zprod (nonzero a) * zprod (nonzero b)) * v) in * by lia.
      apply mul_whole; auto.
    + split; [|lia]. replace (i0 * (zprod (nonzero a) * (o * zprod (nonzero b)))) with (i0 * (zprod (nonzero a) * zprod (nonzero b)) * o) in * by lia.
      apply div_whole with o; auto.
    + split; [|lia]. destruct D as [|[|[k Ek]]]; [contradiction..|]. subst v. assert (Nk : k <> 0) by nia.
      assert (Sk : small k) by (apply (mul_small k o); auto).
      replace (i0 * (zprod (nonzero a) * (k * o * zprod (nonzero b)))) with (i0 * (zprod (nonzero a) * (o * zprod (nonzero b))) * k) in * by lia.
      apply mul_whole; auto. apply div_whole with o; auto.
  - rewrite (whole_nan _ _ So), Sv. cbn [andb dnan]. destruct (nth_error l (uidx z)) as [x|] eqn:E; [|discriminate]. destruct (_ && _) eqn:Cc in R; [|discriminate].
    injection R as <-. apply andb_true_iff in Cc. destruct Cc as [C1 C2]. apply Nat.eqb_eq in C1. apply Z.eqb_eq in C2. subst x.
    pose proof (removed_last _ _ _ E C1) as El. set (p := removelast l) in *. clearbody p. subst l.
    assert (Sx : small o) by (apply Forall_elt in Ks; exact Ks). rewrite (eqb0 _ _ So Sx). rewrite !nonzero_app, !zeros_app, !nz_cons, !zeros_cons, !zprod_app in *.
    destruct (Z.eqb_spec o 0) as [->|No]; cbn [fst snd]; rewrite ?zp_cons in *; change (zprod (nonzero [])) with 1 in *; change (zeros []) with 0.
    + rewrite Z.mul_1_r in *. split; [exact W|lia].
    + split; [|lia]. replace (i0 * (zprod (nonzero p) * (o * 1))) with (i0 * zprod (nonzero p) * o) in * by lia. apply div_whole with o; auto.
  - rewrite So. cbn [dnan andb]. destruct (Nat.eqb_spec (uidx z) (length l)); [|discriminate]. injection R as <-.
    assert (Sy : small v) by (apply Forall_elt in Ks1; exact Ks1). rewrite (eqb0 _ _ Sv Sy). rewrite !nonzero_app, !zeros_app, !nz_cons, !zeros_cons, !zprod_app in *.
    destruct (Z.eqb_spec v 0) as [->|No]; cbn [fst snd]; rewrite ?zp_cons in *; change (zprod (nonzero [])) with 1 in *; change (zeros []) with 0.
    + rewrite Z.mul_1_r in *. split; [exact W|lia].
    + split; [|lia]. replace (i0 * (zprod (nonzero l) * (v * 1))) with (i0 * zprod (nonzero l) * v) in * by lia. apply mul_whole; auto.
Qed.
Lemma tracks_mul l zs l1 : tracks (tame i0) divides_only l zs l1 -> forall us st, MI st l -> Forall2 same_update us zs -> MI (fold_left mul1 us st) l1 /\ (tame i0) l1.
Proof.
  induction 1 as [l K|l u us0 l1 l2 K U R T IH]; intros us st W F; inversion F as [|? ? ? ? F1 F2]; subst; cbn [fold_left]; [auto|].
  assert (K1 : (tame i0) l1) by (inversion T; auto). apply IH; [|exact F2]. eapply step_mul; eauto.
Qed.
Definition shown (n : Z) (nz : dbl) : dbl := if 0 <? n then dlit 0 else nz.
Lemma shown_ok st l : MI st l -> whole (shown (snd st) (fst st)) (i0 * zprod l).
Proof.
  intros [W C]. unfold shown. rewrite C, zprod_zero. destruct (0 <? zeros l); [|exact W]. rewrite Z.mul_0_r. apply norm0_whole, small0.
Qed.
Record MC (d : mdata) (l : list Z) : Prop := {
  mc_st : MI (m_nz d, m_cnt d) l; mc_val : m_val d = shown (m_cnt d) (m_nz d);
  mc_old : m_old d = m_val d; mc_nz : m_nz_old d = m_nz d; mc_cnt : m_cnt_old d = m_cnt d }.
Lemma prop_mul d l zs l1 us : MC d l -> tracks (tame i0) divides_only l zs l1 -> Forall2 same_update us zs ->
  exists d1, mul_prop d us = Ok d1 /\ MI (m_nz d1, m_cnt d1) l1 /\ m_val d1 = shown (m_cnt d1) (m_nz d1) /\
    m_old d1 = m_old d /\ m_nz_old d1 = m_nz_old d /\ m_cnt_old d1 = m_cnt_old d.
Proof.
  intros M T F. destruct (tracks_mul _ _ _ T _ _ (mc_st _ _ M) F) as [I _]. unfold mul_prop.
  assert (G : (m_cnt d =? 0) || deqb (m_val d) (dlit 0) = true).
  { rewrite (mc_val _ _ M). unfold shown. pose proof (proj2 (mc_st _ _ M)) as C. cbn [snd] in C. destruct (Z.eqb_spec (m_cnt d) 0); [reflexivity|].
    assert (0 <= zeros l) by (unfold zeros; lia). destruct (Z.ltb_spec 0 (m_cnt d)); [reflexivity|lia]. }
  rewrite G. destruct (fold_left mul1 us (m_nz d, m_cnt d)) as [nz n]. eexists. split; [reflexivity|]. cbn. auto.
Qed.
Lemma history_mul l mz l1 : history (tame i0) divides_only l mz l1 -> forall ms d, MC d l -> Forall2 same_move ms mz ->
  exists d1, mul_run d ms = Ok d1 /\ MC d1 l1.
Proof.
  induction 1 as [l K|l us ms0 l1 l2 T H IH|l us ms0 l1 l2 T H IH]; intros ms d M F; inversion F as [|m ? ? ? F1 F2]; subst.
  - exists d. split; [reflexivity|exact M].
  - destruct F1 as [Ek Fu]. destruct m as [u|u]; try discriminate Ek; cbn [updates_of] in Fu. destruct (prop_mul _ _ _ _ _ M T Fu) as (d1 & E & I & V & _).
    unfold mul_run. cbn [rfold]. unfold mul_move at 1. cbn [updates_of kept]. rewrite E. cbn [rbind]. apply IH; [|exact F2]. constructor; cbn; auto.
  - destruct F1 as [Ek Fu]. destruct m as [u|u]; try discriminate Ek; cbn [updates_of] in Fu. destruct (prop_mul _ _ _ _ _ M T Fu) as (d1 & E & I & V & O1 & O2 & O3).
    unfold mul_run. cbn [rfold]. unfold mul_move at 1. cbn [updates_of kept]. rewrite E. cbn [rbind]. apply IH; [|exact F2].
    destruct M as [M1 M2 M3 M4 M5]. constructor; cbn; rewrite ?O1, ?O2, ?O3, ?M3, ?M4, ?M5; auto.
Qed.
Lemma init_mul init xs l : match init with Some i => whole i i0 | None => i0 = 1 end -> Forall2 whole xs l -> (forall k, (tame i0) (firstn k l)) ->
  MC (mul_init init xs) l.
Proof.
  intros Hi W K. unfold mul_init. set (f := fun st v => _). 
  assert (G : forall xs zs ys st, Forall2 whole xs zs -> l = ys ++ zs -> MI st ys -> MI (fold_left f xs st) l).
  { clear xs W. intros xs zs ys st W. revert ys st. induction W as [|x z xs zs' W1 W2 IH]; intros ys st E I; cbn [fold_left].
    - rewrite E, app_nil_r. exact I.
    - apply (IH (ys ++ [z])); [now rewrite <- app_assoc|].
      assert (K1 : (tame i0) (ys ++ [z])). { pose proof (K (length ys + 1)%nat) as Q. rewrite E in Q. rewrite firstn_app_2 in Q. exact Q. }
      assert (K0 : (tame i0) ys). { pose proof (K (length ys + 0)%nat) as Q. rewrite E in Q. rewrite firstn_app_2 in Q. cbn [firstn] in Q. now rewrite app_nil_r in Q. }
      destruct I as [I1 I2]. destruct st as [nz n]. cbn [fst snd] in I1, I2. subst n. unfold f. cbn [fst snd].
      assert (Sz : small z) by (destruct K1 as [_ Q]; apply Forall_elt in Q; exact Q). rewrite (eqb0 _ _ W1 Sz). unfold MI.
      destruct K1 as [K1 _], K0 as [K0 _]. rewrite !nonzero_app, !zeros_app, !nz_cons, !zeros_cons, !zprod_app in *.
      destruct (Z.eqb_spec z 0) as [->|No]; cbn [fst snd]; rewrite ?zp_cons in *; change (zprod (nonzero [])) with 1 in *; change (zeros []) with 0.
      + rewrite Z.mul_1_r in *. split; [exact I1|lia].
      + split; [|lia]. replace (i0 * (zprod (nonzero ys) * (z * 1))) with (i0 * zprod (nonzero ys) * z) in * by lia. apply mul_whole; auto. }
  specialize (G xs l [] (match init with Some i => i | None => dlit 1 end, 0) W eq_refl).
  assert (I0 : MI (match init with Some i => i | None => dlit 1 end, 0) []).
  { split; [|reflexivity]. cbn [fst]. change (zprod (nonzero [])) with 1. rewrite Z.mul_1_r. destruct init; [exact Hi|]. rewrite Hi. apply norm0_whole. unfold small. cbn. lia. }
  specialize (G I0). destruct (fold_left f xs _) as [nz n]. constructor; cbn; auto.
Qed.
End Mul.
