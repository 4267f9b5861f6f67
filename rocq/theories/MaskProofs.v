(** Iterators with masks. *)
From Verif Require Import Base SliceModel BinaryModel ShapeModel MaskModel MaskSpec.
Local Open Scope Z_scope.

Lemma move_masked p k f o : move1 (m_masked p k f) o = Ok (m_masked (p + step o) (k + step o) f).
Proof. destruct o; reflexivity. Qed.
Lemma moved_masked os : forall p k f, moved (m_masked p k f) os = Ok (m_masked (p + net os) (k + net os) f).
Proof.
  induction os as [|o os IH]; intros p k f; unfold moved in *; cbn [rfold net]; [now rewrite !Z.add_0_r|]. rewrite move_masked. cbn [rbind]. rewrite IH. now rewrite !Z.add_assoc.
Qed.
Lemma nth_error_skipn' {A} : forall n (l : list A) i, nth_error (skipn n l) i = nth_error l (n + i).
Proof. induction n as [|n IH]; intros [|a l] i; try reflexivity; [now destruct i|]. apply IH. Qed.
Section Mask.
Variable V : Type.
Variable truth : V -> bool.
Lemma masked_nth v : forall ks l n, length ks = length l -> nth_error (masked V truth v ks l) n = match nth_error ks n, nth_error l n with Some b, Some x => Some (if truth b then v else x) | _, _ => None end.
Proof. induction ks as [|b ks IH]; intros [|x l] [|n] H; try discriminate; try reflexivity. cbn. apply IH. now injection H. Qed.
Lemma read_at m data mask fill l ks v n x : holds V m data l -> holds V m mask ks -> m fill = Some v -> length ks = length l ->
  nth_error (masked V truth v ks l) n = Some x -> m_read V truth m (m_masked (data + Z.of_nat n) (mask + Z.of_nat n) fill) = Ok x.
Proof.
  intros Hd Hk Hf Hl H. rewrite masked_nth in H by exact Hl. destruct (nth_error ks n) as [b|] eqn:Eb; [|discriminate]. destruct (nth_error l n) as [y|] eqn:Ey; [|discriminate]. injection H as <-.
  unfold m_read, m_addr, m_masked. cbn [mi mi_mask mk_mask mk_fill it_ptr]. rewrite (Hk _ _ Eb). cbn [rbind]. destruct (truth b); [now rewrite Hf|]. now rewrite (Hd _ _ Ey).
Qed.
Lemma masked_read m data mask fill l ks v os n x : holds V m data l -> holds V m mask ks -> m fill = Some v -> length ks = length l ->
  net os = Z.of_nat n -> nth_error (masked V truth v ks l) n = Some x ->
  exists it, moved (m_masked data mask fill) os = Ok it /\ m_read V truth m it = Ok x /\
    forall k y, 0 <= Z.of_nat n + k -> nth_error (masked V truth v ks l) (Z.to_nat (Z.of_nat n + k)) = Some y -> m_index V truth m it k = Ok y.
Proof.
  intros Hd Hk Hf Hl En Hx. eexists. split; [apply moved_masked|]. rewrite En. split; [eapply read_at; eassumption|].
  intros k y H0 Hy. unfold m_index. change (m_add (m_masked (data + Z.of_nat n) (mask + Z.of_nat n) fill) k) with (Ok (m_masked (data + Z.of_nat n + k) (mask + Z.of_nat n + k) fill)). cbn [rbind].
  rewrite <- !Z.add_assoc, <- (Z2Nat.id (Z.of_nat n + k)) by exact H0. eapply read_at; eassumption.
Qed.
Lemma masked_loop m data mask fill l ks v last : holds V m data l -> holds V m mask ks -> m fill = Some v -> length ks = length l ->
  it_ptr (mi last) = data + Z.of_nat (length l) ->
  forall fuel, (length l <= fuel)%nat -> m_collect V truth fuel m (m_masked data mask fill) last = Some (Ok (masked V truth v ks l)).
Proof.
  intros Hd Hk Hf. revert data mask ks Hd Hk. induction l as [|x l IH]; intros data mask [|b ks] Hd Hk Hl He fuel Hfu; try discriminate.
  - destruct fuel; cbn [m_collect]; unfold m_eqb; rewrite He; cbn [m_masked mi it_ptr length Z.of_nat]; rewrite Z.add_0_r, Z.eqb_refl; reflexivity.
  - cbn [length] in *. destruct fuel as [|fuel]; [lia|]. cbn [m_collect]. unfold m_eqb at 1. rewrite He. cbn [m_masked mi it_ptr]. destruct (Z.eqb_spec data (data + Z.of_nat (S (length l)))); [lia|].
    pose proof (@read_at m data mask fill (x :: l) (b :: ks) v 0 (if truth b then v else x) Hd Hk Hf) as R. cbn [Z.of_nat] in R. rewrite !Z.add_0_r in R. change {| mi := {| it_ptr := data; it_shape := None |}; mi_mask := Some (Mask mask fill) |} with (m_masked data mask fill). rewrite R by (cbn; congruence || reflexivity).
    change (m_inc (m_masked data mask fill)) with (Ok (m_masked (data + 1) (mask + 1) fill)). cbv iota.
    rewrite (IH (data + 1) (mask + 1) ks).
    + reflexivity.
    + intros i y Hy. specialize (Hd (S i) y Hy). now replace (data + 1 + Z.of_nat i) with (data + Z.of_nat (S i)) by lia.
    + intros i y Hy. specialize (Hk (S i) y Hy). now replace (mask + 1 + Z.of_nat i) with (mask + Z.of_nat (S i)) by lia.
    + congruence.
    + lia.
    + lia.
Qed.
Lemma masked_write m data mask fill l ks v n x w : holds V m data l -> holds V m mask ks -> m fill = Some v -> length ks = length l ->
  apart_mem data (length l) mask fill -> nth_error ks n = Some x -> truth x = false ->
  exists it m', m_add (m_masked data mask fill) (Z.of_nat n) = Ok it /\ m_write V truth m it w = Ok m' /\
    holds V m' data (firstn n l ++ w :: skipn (S n) l) /\ holds V m' mask ks /\ m' fill = Some v.
Proof.
  intros Hd Hk Hf Hl [A1 A2] Hx Ht. exists (m_masked (data + Z.of_nat n) (mask + Z.of_nat n) fill). assert (Hn : (n < length l)%nat) by (rewrite <- Hl; apply nth_error_Some; congruence).
  destruct (nth_error l n) as [y|] eqn:Ey; [|apply nth_error_None in Ey; lia]. eexists. split; [reflexivity|]. split; [unfold m_write, m_addr, m_masked; cbn [mi mi_mask mk_mask mk_fill it_ptr]; rewrite (Hk _ _ Hx), Ht; cbn [rbind]; rewrite (Hd _ _ Ey); reflexivity|].
  cbv beta. split; [|split].
  - intros i z Hz. destruct (Z.eqb_spec (data + Z.of_nat i) (data + Z.of_nat n)) as [E|E].
    + assert (i = n) by lia. subst i. rewrite nth_error_app2 in Hz by (rewrite firstn_length; lia). rewrite firstn_length, Nat.min_l, Nat.sub_diag in Hz by lia. exact Hz.
    + apply Hd. assert (Hin : i <> n) by lia. destruct (Nat.lt_ge_cases i n) as [L|L].
      * rewrite nth_error_app1 in Hz by (rewrite firstn_length; lia). clear - Hz L. revert i l L Hz. induction n as [|n IH]; intros [|i] [|a l] L Hz; try lia; try discriminate; cbn in *; [exact Hz|]. apply IH; [lia|exact Hz].
      * rewrite nth_error_app2 in Hz by (rewrite firstn_length; lia). rewrite firstn_length, Nat.min_l in Hz by lia. destruct (i - n)%nat as [|j] eqn:Ej; [lia|]. cbn [nth_error] in Hz. rewrite nth_error_skipn' in Hz. now replace (S n + j)%nat with i in Hz by lia.
  - intros i z Hz. assert (Hi : (i < length l)%nat) by (rewrite <- Hl; apply nth_error_Some; congruence). destruct (Z.eqb_spec (mask + Z.of_nat i) (data + Z.of_nat n)); [lia|]. now apply Hk.
  - destruct (Z.eqb_spec fill (data + Z.of_nat n)); [lia|exact Hf].
Qed.
End Mask.
Lemma masked_moves data mask fill os : exists it, moved (m_masked data mask fill) os = Ok it.
Proof. eexists. apply moved_masked. Qed.
Lemma masked_distance data mask fill os os' a b : moved (m_masked data mask fill) os = Ok a -> moved (m_masked data mask fill) os' = Ok b ->
  m_diff a b = Ok (net os - net os') /\ m_eqb a b = (net os =? net os') /\ m_ltb a b = Ok (net os <? net os').
Proof.
  rewrite !moved_masked. intros E E'. injection E as <-. injection E' as <-. unfold m_diff, m_eqb, m_ltb, it_ltb, it_diff, m_masked. cbn [mi it_shape it_ptr]. split; [f_equal; lia|]. split; [|f_equal].
  - destruct (Z.eqb_spec (data + net os) (data + net os')), (Z.eqb_spec (net os) (net os')); lia.
  - destruct (Z.ltb_spec 0 (data + net os' - (data + net os))), (Z.ltb_spec (net os) (net os')); lia.
Qed.
Lemma move_one it o it' : it_shape (mi it) = None \/ mi_mask it = None -> move1 it o = Ok it' -> it_shape (mi it') = None \/ mi_mask it' = None.
Proof.
  destruct it as [[p s] k]. cbn [mi it_shape mi_mask]. intros H E. assert (A : forall n, m_add (MIter (Iter p s) k) n = Ok it' -> it_shape (mi it') = None \/ mi_mask it' = None).
  { intros n En. unfold m_add in En. cbn [mi it_shape mi_mask it_ptr] in En. destruct s, k; try discriminate; [|injection En as <-; auto|]; destruct (it_add _ n); try discriminate; injection En as <-; auto. }
  destruct o; cbn [move1] in E; unfold m_sub in E; eauto; unfold m_inc, m_dec in E; cbn [mi it_shape mi_mask it_ptr] in E; destruct s, k; try discriminate; injection E as <-; auto.
Qed.
Lemma never_both it os it' : (exists p, it = m_contiguous p) \/ (exists p k f, it = m_masked p k f) \/ (exists p shape strides, it = m_strided p shape strides) ->
  moved it os = Ok it' -> it_shape (mi it') = None \/ mi_mask it' = None.
Proof.
  intros H. assert (H0 : it_shape (mi it) = None \/ mi_mask it = None) by (destruct H as [(p & ->)|[(p & k & f & ->)|(p & s & t & ->)]]; auto). clear H. revert it H0. induction os as [|o os IH]; intros it H0 E; unfold moved in *; cbn [rfold] in E; [injection E as <-; exact H0|].
  destruct (move1 it o) as [it1| |] eqn:E1; try discriminate. cbn [rbind] in E. eapply IH; [|exact E]. eapply move_one; eassumption.
Qed.
