(** Partial sums of whole numbers, and undoing. *)
From Coq.Floats Require Import SpecFloat.
From Coq Require Import Permutation Lia ZArith.
From Verif Require Import Base SliceModel StateDataModel StateDataSpec BinaryModel QuadModel DblSpec DblModel DblProofs DblProofs2.
Local Open Scope Z_scope.

Lemma tame_firstn i0 l k : tame i0 l -> tame i0 (firstn k l).
Proof.
  intros [S F]. rewrite <- (firstn_skipn k l) in S, F. rewrite nonzero_app, zprod_app in S. split.
  - rewrite Z.mul_assoc in S. eapply mul_small; [|exact S]. generalize (skipn k l). clear. induction l as [|x l IH]; [cbn; lia|].
    rewrite nz_cons. destruct (Z.eqb_spec x 0); [exact IH|]. rewrite zp_cons. nia.
  - apply Forall_app in F. apply F.
Qed.

Section Partial.
Variable f : nat -> nat.
Definition gro {X} (j o : nat) (l : list X) : list X := map snd (filter (fun p => (f (fst p) =? j)%nat) (combine (seq o (length l)) l)).
Lemma gro_cons {X} j o (x : X) l : gro j o (x :: l) = if (f o =? j)%nat then x :: gro j (S o) l else gro j (S o) l.
Proof. unfold gro. cbn [length seq combine filter fst]. destruct (f o =? j)%nat; reflexivity. Qed.
Lemma gro_lset j l : forall o i v x, nth_error l i = Some x ->
  zsum (gro j o (lset i v l)) = zsum (gro j o l) + (if (f (o + i) =? j)%nat then v - x else 0).
Proof.
  induction l as [|h t IH]; intros o [|i] v x E; try discriminate; cbn [nth_error] in E; cbn [lset]; rewrite !gro_cons.
  - injection E as ->. rewrite Nat.add_0_r. destruct (f o =? j)%nat; unfold zsum; cbn [fold_right]; lia.
  - specialize (IH (S o) i v x E). rewrite Nat.add_succ_r. cbn [Nat.add] in IH. destruct (f o =? j)%nat; unfold zsum in *; cbn [fold_right]; lia.
Qed.
Lemma group_lset j l i v x : nth_error l i = Some x -> zsum (group f j (lset i v l)) = zsum (group f j l) + (if (f i =? j)%nat then v - x else 0).
Proof. apply (gro_lset j l 0). Qed.
Lemma gro_bound {X} (P : X -> Prop) j l : forall o, Forall P l -> Forall P (gro j o l) /\ (length (gro j o l) <= length l)%nat.
Proof.
  induction l as [|x l IH]; intros o F; [split; [constructor|cbn; lia]|]. inversion F; subst. destruct (IH (S o)) as [A B]; auto.
  rewrite gro_cons. cbn [length]. destruct (f o =? j)%nat; cbn [length]; split; auto; lia.
Qed.
Lemma gro_whole j xs zs : Forall2 whole xs zs -> forall o, Forall2 whole (gro j o xs) (gro j o zs).
Proof. induction 1 as [|x z xs zs H F IH]; intros o; [constructor|]. rewrite !gro_cons. destruct (f o =? j)%nat; auto. Qed.

Variables (B : Z) (L : nat) (i0 : Z) (n : nat).
Hypothesis HB : 0 <= B.
Hypothesis HL : Z.abs i0 + Z.of_nat L * B < 2 ^ 53.
Hypothesis H2 : 2 * B < 2 ^ 53.
Hypothesis Hf : forall i, (i < L)%nat -> (f i < n)%nat.

Lemma group_bounded j l : bounded_by B L l -> bounded_by B L (group f j l).
Proof. intros [K F]. destruct (gro_bound _ j l 0 F) as [A C]. split; [|exact A]. change (length (gro j 0 l) <= L)%nat. lia. Qed.

Definition PI (d : pdata) (l : list Z) : Prop :=
  length (p_buf d) = n /\ forall j r, nth_error (p_buf d) j = Some r -> whole r (i0 + zsum (group f j l)).
Lemma step_part d l u z l1 : PI d l -> bounded_by B L l -> bounded_by B L l1 -> same_update u z -> in_place z -> replay1 Z.eqb l z = Some l1 ->
  exists d1, part1 f d u = Ok d1 /\ PI d1 l1.
Proof.
  intros [Ln W] K K1 (Ei & So & Sv) D R. unfold replay1 in R. unfold in_place in D. destruct (uold z) as [o|], (uval z) as [v|]; try contradiction. cbn [stands] in So, Sv.
  destruct (nth_error l (uidx z)) as [x|] eqn:E; [|discriminate]. destruct (Z.eqb_spec x o); [subst x|discriminate]. injection R as <-.
  assert (Hi : (uidx z < length l)%nat) by (apply nth_error_Some; congruence).
  assert (Hj : (f (uidx z) < length (p_buf d))%nat) by (rewrite Ln; apply Hf; destruct K; lia).
  unfold part1, rget. rewrite Ei. destruct (nth_error (p_buf d) (f (uidx z))) as [prev|] eqn:Ep; [|apply nth_error_None in Ep; lia].
  cbn [rbind]. eexists. split; [reflexivity|]. split; cbn [p_buf]; [rewrite lset_length; exact Ln|]. intros j r Er.
  assert (Ko : Z.abs o <= B) by (destruct K as [_ F]; rewrite Forall_forall in F; apply F; eapply nth_error_In; exact E).
  assert (Kv : Z.abs v <= B).
  { destruct K1 as [_ F]. rewrite Forall_forall in F. apply F. eapply nth_error_In with (n := uidx z). now apply nth_error_lset_eq. }
  destruct (sum_small B L i0 HB HL _ (group_bounded j _ K)) as [S0 _]. destruct (sum_small B L i0 HB HL _ (group_bounded j _ K1)) as [S1 _].
  rewrite (group_lset _ _ _ _ _ E) in S1 |- *. rewrite nth_error_lset in Er. destruct (Nat.eqb_spec (f (uidx z)) j) as [Ej|Nj]; cbn [andb] in Er.
  - apply Nat.ltb_lt in Hj. rewrite Hj in Er. injection Er as <-. subst j. specialize (W _ _ Ep). rewrite Z.add_assoc in S1 |- *.
    apply add_whole; auto; [apply sub_whole; auto|]; unfold small; lia.
  - rewrite Z.add_0_r. apply W, Er.
Qed.
Lemma tracks_part l zs l1 : tracks (bounded_by B L) in_place l zs l1 -> forall us d, PI d l -> Forall2 same_update us zs ->
  exists d1, part_prop f d us = Ok d1 /\ PI d1 l1.
Proof.
  induction 1 as [l K|l u us0 l1 l2 K U R T IH]; intros us d W F; inversion F as [|du ? dus ? F1 F2]; subst; unfold part_prop; cbn [rfold]; [eauto|].
  assert (K1 : bounded_by B L l1) by (inversion T; auto). destruct (step_part d l du u l1 W K K1 F1 U R) as (d1 & -> & W1). cbn [rbind]. now apply IH.
Qed.
Definition roll (b : list dbl) (ups : list dupdate) : list dbl := fold_left (fun b u => lset (d_idx u) (d_old u) b) (rev ups) b.
Lemma part1_roll d u d1 : part1 f d u = Ok d1 -> roll (p_buf d1) (p_upd d1) = roll (p_buf d) (p_upd d).
Proof.
  unfold part1, rget. destruct (nth_error _ _) as [prev|] eqn:E; [|discriminate]. cbn [rbind]. intros [= <-]. cbn [p_buf p_upd]. unfold roll. rewrite rev_app_distr.
  cbn [rev app fold_left d_idx d_old]. now rewrite lset_lset, lset_same.
Qed.
Lemma part_prop_roll us : forall d d1, part_prop f d us = Ok d1 -> roll (p_buf d1) (p_upd d1) = roll (p_buf d) (p_upd d).
Proof.
  induction us as [|u us IH]; intros d d1 E; unfold part_prop in E; cbn [rfold] in E; [now injection E as <-|].
  destruct (part1 f d u) as [d2| |] eqn:E1; try discriminate E. cbn [rbind] in E. rewrite (IH _ _ E). eapply part1_roll; eauto.
Qed.
Lemma part_undo d us d1 : p_upd d = [] -> part_prop f d us = Ok d1 -> part_revert d1 = d.
Proof. intros Ed E. pose proof (part_prop_roll _ _ _ E) as R. unfold part_revert. fold (roll (p_buf d1) (p_upd d1)). rewrite R, Ed. destruct d. cbn in *. now subst. Qed.
Lemma history_part l mz l1 : history (bounded_by B L) in_place l mz l1 -> forall ms d, p_upd d = [] -> PI d l -> Forall2 same_move ms mz ->
  exists d1, part_run f d ms = Ok d1 /\ PI d1 l1 /\ p_upd d1 = [].
Proof.
  induction 1 as [l K|l us ms0 l1 l2 T H IH|l us ms0 l1 l2 T H IH]; intros ms d Ed W F; inversion F as [|m ? ? ? F1 F2]; subst; unfold part_run; cbn [rfold]; [eauto| |];
    destruct F1 as [Ek Fu]; destruct m as [u|u]; try discriminate Ek; cbn [updates_of] in Fu; destruct (tracks_part _ _ _ T _ _ W Fu) as (d1 & E & W1);
    unfold part_move at 1; cbn [updates_of kept]; rewrite E; cbn [rbind].
  - apply IH; auto.
  - rewrite (part_undo _ _ _ Ed E). apply IH; auto.
Qed.
Lemma init_part init l xs d : match init with Some i => whole i i0 | None => i0 = 0 end -> Forall2 whole xs l -> bounded_by B L l ->
  part_init f init n xs d -> PI d l /\ p_upd d = [].
Proof.
  intros Hi W K (rs & Ln & G & ->). split; [|reflexivity]. split; [exact Ln|]. cbn [p_buf]. intros j r Er. specialize (G _ _ Er).
  pose proof (init_sum B L i0 HB HL init (group f j l) (group f j xs) (SData r r) Hi (gro_whole j _ _ W 0) (group_bounded j _ K)) as Q.
  apply Q. exists r. auto.
Qed.
End Partial.

(** Undoing. *)
Lemma sum_run_old ms : forall d, s_old d = s_val d -> s_old (sum_run d ms) = s_val (sum_run d ms).
Proof. induction ms as [|m ms IH]; intros d E; [exact E|]. unfold sum_run. cbn [fold_left]. apply IH. unfold sum_move. destruct (kept m); reflexivity. Qed.
Lemma sum_undo d us : s_old d = s_val d -> sum_move d (Undo us) = d.
Proof. intros E. unfold sum_move, sum_revert, sum_prop. cbn. destruct d. cbn in *. now subst. Qed.
Definition clean (d : mdata) : Prop := m_old d = m_val d /\ m_nz_old d = m_nz d /\ m_cnt_old d = m_cnt d.
Lemma mul_prop_old d us d1 : mul_prop d us = Ok d1 -> m_old d1 = m_old d /\ m_nz_old d1 = m_nz_old d /\ m_cnt_old d1 = m_cnt_old d.
Proof. unfold mul_prop. destruct (_ || _); [|discriminate]. destruct (fold_left _ _ _). intros [= <-]. auto. Qed.
Lemma mul_move_clean d m d1 : mul_move d m = Ok d1 -> clean d1.
Proof. unfold mul_move. destruct (mul_prop _ _) as [d2| |]; try discriminate. cbn [rbind]. intros [= <-]. destruct (kept m); repeat split. Qed.
Lemma mul_run_clean ms : forall d d1, clean d -> mul_run d ms = Ok d1 -> clean d1.
Proof.
  induction ms as [|m ms IH]; intros d d1 C E; unfold mul_run in E; cbn [rfold] in E; [now injection E as <-|].
  destruct (mul_move d m) as [d2| |] eqn:E1; try discriminate E. cbn [rbind] in E. eapply IH; [|exact E]. eapply mul_move_clean; eauto.
Qed.
Lemma mul_undo d us d1 : clean d -> mul_move d (Undo us) = Ok d1 -> d1 = d.
Proof.
  intros (C1 & C2 & C3). unfold mul_move. destruct (mul_prop _ _) as [d2| |] eqn:E; try discriminate. cbn [rbind kept]. intros [= <-].
  destruct (mul_prop_old _ _ _ E) as (O1 & O2 & O3). unfold mul_revert. rewrite O1, O2, O3. destruct d. cbn in *. now subst.
Qed.
Lemma mul_init_clean init l : clean (mul_init init l).
Proof. unfold mul_init. destruct (fold_left _ _ _). repeat split. Qed.
Lemma part_move_clean f d m d1 : part_move f d m = Ok d1 -> p_upd d1 = [].
Proof. unfold part_move. destruct (part_prop _ _ _) as [d2| |]; try discriminate. cbn [rbind]. intros [= <-]. destruct (kept m); reflexivity. Qed.
Lemma part_run_clean f ms : forall d d1, p_upd d = [] -> part_run f d ms = Ok d1 -> p_upd d1 = [].
Proof.
  induction ms as [|m ms IH]; intros d d1 C E; unfold part_run in E; cbn [rfold] in E; [now injection E as <-|].
  destruct (part_move f d m) as [d2| |] eqn:E1; try discriminate E. cbn [rbind] in E. eapply IH; [|exact E]. eapply part_move_clean; eauto.
Qed.
Lemma part_undo_move f d us d1 : p_upd d = [] -> part_move f d (Undo us) = Ok d1 -> d1 = d.
Proof. intros C. unfold part_move. destruct (part_prop _ _ _) as [d2| |] eqn:E; try discriminate. cbn [rbind kept]. intros [= <-]. eapply part_undo; eauto. Qed.
Lemma trunc_whole x z : whole x z -> dtrunc x = Some z.
Proof.
  destruct x as [s|s| |s m e]; cbn [whole dtrunc]; intros W; try contradiction; [now subst|]. destruct W as [_ W]. f_equal.
  destruct (Z.ltb_spec e 0) as [Le|Le].
  - rewrite (Z.max_r e 0), (Z.max_l (- e) 0) in W by lia. assert (0 < 2 ^ (- e)) by (apply Z.pow_pos_nonneg; lia).
    rewrite Z.mul_1_r in W. destruct s; cbn [cond_Zopp].
    + replace (Zpos m) with ((- z) * 2 ^ (- e)) by lia. rewrite Z.div_mul by lia. lia.
    + rewrite W. apply Z.div_mul. lia.
  - rewrite (Z.max_l e 0), (Z.max_r (- e) 0) in W by lia. destruct s; cbn [cond_Zopp]; lia.
Qed.
