(** The offsets: the reverse map and the updates of the indexing arrays. *)
From Coq Require Import Permutation.
From Verif Require Import Base SliceModel ShapeModel ShapeSpec ShapeProofs StateDataModel StateDataSpec StateDataProofs Replay NodeSpec BinaryModel Num QuadModel PermModel PermSpec PermProofs DedupModel DedupProofs AdvModel AdvSpec AdvProofs.
Local Open Scope Z_scope.

Lemma rfold_app {X Y} (f : X -> Y -> res X) a l1 l2 : rfold f a (l1 ++ l2) = rbind (rfold f a l1) (fun b => rfold f b l2).
Proof. revert a; induction l1 as [|x l1 IH]; intros a; cbn [app rfold rbind]; [reflexivity|]. destruct (f a x); cbn [rbind]; auto. Qed.

Lemma f2c {X Y} (P : X -> Y -> Prop) x l y m : Forall2 P (x :: l) (y :: m) -> P x y /\ Forall2 P l m.
Proof. intros H; inversion H; auto. Qed.
(** One update of a list, pointwise. *)
Lemma rp1_nth {V} (veqb : V -> V -> bool) (sp : forall x y, reflect (x = y) (veqb x y)) l u l1 :
  replay1 veqb l u = Some l1 ->
  nth_error l (uidx u) = uold u /\ (forall j, nth_error l1 j = if (j =? uidx u)%nat then uval u else nth_error l j).
Proof.
  intros H. apply (rp1_inv sp) in H. destruct H as [o v E H ->|v -> ->|o -> ->].
  - destruct u as [i uo uv]. unfold change in E. cbn [uidx uold uval] in *. injection E as -> ->. split; [exact H|]. intros j.
    destruct (Nat.eqb_spec j i) as [->|N]; [apply nth_error_lset_eq; apply nth_error_lt in H; exact H|]. apply nth_error_lset_neq. auto.
  - cbn [uold uval uidx placement]. split; [apply nth_error_None; lia|]. intros j.
    destruct (Nat.eqb_spec j (length l)) as [->|N]; [apply nth_error_snoc|].
    destruct (Nat.lt_ge_cases j (length l)); [now rewrite nth_error_app1 by lia|].
    rewrite (proj2 (nth_error_None l j)) by lia. apply nth_error_None. rewrite app_length. cbn. lia.
  - cbn [uold uval uidx removal]. split; [apply nth_error_snoc|]. intros j.
    destruct (Nat.eqb_spec j (length l1)) as [->|N]; [apply nth_error_None; lia|].
    destruct (Nat.lt_ge_cases j (length l1)); [now rewrite nth_error_app1 by lia|].
    rewrite (proj2 (nth_error_None l1 j)) by lia. symmetry. apply nth_error_None. rewrite app_length. cbn. lia.
Qed.

Section Rev.
Variable konst : bool.
Definition RevI (r : Z -> list nat) (g : nat -> option Z) : Prop :=
  konst = false -> forall o, NoDup (r o) /\ forall i, In i (r o) <-> g i = Some o.

Lemma RevI_ext r g g' : (forall i, g i = g' i) -> RevI r g -> RevI r g'.
Proof. intros E H K o. destruct (H K o) as [N I]. split; [exact N|]. intros i. rewrite <- E. apply I. Qed.

Lemma rev_add_ok i o r g : g i = None -> RevI r g -> RevI (rev_add konst i o r) (fun k => if (k =? i)%nat then Some o else g k).
Proof.
  intros G H K o'. destruct (H K o') as [N I]. unfold rev_add. rewrite K. destruct (Z.eqb_spec o' o) as [->|D].
  - split.
    + apply (Permutation_NoDup (l := i :: r o)); [apply Permutation_cons_append|]. constructor; [|exact N]. rewrite I. congruence.
    + intros k. rewrite in_app_iff, I. cbn [In]. destruct (Nat.eqb_spec k i) as [->|]; [intuition congruence|].
      split; [intros [?|[?|[]]]; [auto|congruence]|auto].
  - split; [exact N|]. intros k. rewrite I. destruct (Nat.eqb_spec k i) as [->|]; [|tauto]. rewrite G. split; congruence.
Qed.

Lemma swap_in_split i x p q : ~ In i p -> swap_in i x (p ++ i :: q) = Some (p ++ x :: q).
Proof.
  induction p as [|h p IH]; intros H; cbn [app swap_in]; [now rewrite Nat.eqb_refl|].
  destruct (Nat.eqb_spec h i) as [->|]; [destruct H; now left|]. rewrite IH; [reflexivity|]. intros C; apply H; now right.
Qed.

Lemma rev_del_ok i o r g : g i = Some o -> RevI r g ->
  exists r', rev_del konst i o r = Ok r' /\ RevI r' (fun k => if (k =? i)%nat then None else g k).
Proof.
  intros G H. unfold rev_del. destruct konst eqn:K.
  { exists r. split; [reflexivity|]. intros K2; congruence. }
  destruct (H K o) as [N I]. assert (Hi : In i (r o)) by now apply I.
  set (l := r o) in *. destruct l as [|h t] eqn:El; [destruct Hi|].
  assert (Gen : exists l', (if (last (h :: t) O =? i)%nat then Some (h :: t) else swap_in i (last (h :: t) O) (h :: t)) = Some l' /\
                NoDup (removelast l') /\ forall k, In k (removelast l') <-> In k (h :: t) /\ k <> i).
  { destruct (snoc_cases (h :: t)) as [C|(l0 & b & E)]; [discriminate|]. rewrite E in *. rewrite last_last.
    destruct (Nat.eqb_spec b i) as [->|D].
    - exists (l0 ++ [i]). rewrite removelast_last. split; [reflexivity|].
      apply (Permutation_NoDup (l' := i :: l0)) in N; [|apply Permutation_sym, Permutation_cons_append].
      inversion N as [|? ? N1 N2]; subst. split; [exact N2|]. intros k. rewrite in_app_iff. cbn [In].
      split; [intros Hk; split; [auto|intros ->; auto]|intros [[?|[<-|[]]] Hk]; [auto|congruence]].
    - apply in_app_iff in Hi. destruct Hi as [Hi|[Hi|[]]]; [|congruence].
      apply in_split in Hi. destruct Hi as (p & q & ->).
      assert (Np : ~ In i p).
      { intros C. rewrite <- app_assoc in N. apply NoDup_remove_2 in N. apply N. apply in_app_iff. now left. }
      exists (p ++ b :: q ++ [b]). rewrite <- app_assoc. cbn [app]. rewrite swap_in_split by exact Np. split; [reflexivity|].
      replace (p ++ b :: q ++ [b]) with ((p ++ b :: q) ++ [b]) by (rewrite <- app_assoc; reflexivity). rewrite removelast_last.
      assert (P : Permutation ((p ++ i :: q) ++ [b]) (i :: p ++ b :: q)).
      { eapply perm_trans; [apply Permutation_sym, Permutation_cons_append|].
        eapply perm_trans; [apply perm_skip, Permutation_sym, Permutation_middle|].
        eapply perm_trans; [apply perm_swap|]. apply perm_skip, Permutation_middle. }
      pose proof (Permutation_NoDup P N) as N'. inversion N' as [|? ? N1 N2]; subst. split; [exact N2|].
      intros k. split.
      + intros Hk. split; [|intros ->; auto]. pose proof (Permutation_in k (Permutation_sym P) (or_intror Hk)) as Q.
        rewrite <- app_assoc in Q. exact Q.
      + intros [Hk Hki]. change (p ++ i :: q ++ [b]) with (p ++ (i :: q) ++ [b]) in Hk. rewrite app_assoc in Hk. apply (Permutation_in _ P) in Hk. destruct Hk as [<-|Hk]; [congruence|exact Hk]. }
  destruct Gen as (l' & -> & N' & I').
  eexists. split; [reflexivity|]. intros _ o'. destruct (Z.eqb_spec o' o) as [->|D].
  - split; [exact N'|]. intros k. rewrite I', I. destruct (Nat.eqb_spec k i) as [->|]; [split; [tauto|discriminate]|tauto].
  - destruct (H K o') as [N2 I2]. split; [exact N2|]. intros k. rewrite I2. destruct (Nat.eqb_spec k i) as [->|]; [|tauto].
    rewrite G. split; congruence.
Qed.
End Rev.

(** What an indexing array contributes to entry [j]. *)
Definition entry (l : list num) (j : nat) : Z := match nth_error l j with Some x => ztrunc x | None => 0 end.
Fixpoint contrib (strs : list Z) (ls : list (list num)) (j : nat) : Z :=
  match strs, ls with s :: strs', l :: ls' => s * entry l j + contrib strs' ls' j | _, _ => 0 end.

Section Offsets.
Variables strict dbg : bool.
Variable A : adv.
Variable konst : bool.
Variable off0 : list Z.
Variable n : nat.
(** The part of the state that the first phase does not touch. *)
Definition same_data (d0 d : gdata) : Prop := a_dat d = a_dat d0 /\ a_dif d = a_dif d0 /\ a_osz d = a_osz d0 /\ a_dsz d = a_dsz d0.

Record OI (d0 d : gdata) : Prop := {
  oi_same : same_data d0 d;
  oi_replay : replay Z.eqb off0 (a_odif d) = Some (a_off d);
  oi_rev : RevI konst (a_rev d) (nth_error (a_off d));
  oi_idx : Forall (fun u => (uidx u < Nat.max (length off0) n)%nat) (a_odif d);
  oi_len : (length (a_off d) <= Nat.max (length off0) n)%nat;
  oi_fix : length off0 = n -> Forall is_change (a_odif d) }.

Lemma zspec x y : reflect (x = y) (Z.eqb x y).
Proof. apply Z.eqb_spec. Qed.

Lemma add_ok d0 d i delta o : OI d0 d -> nth_error (a_off d) i = Some o ->
  exists d', add_to_offset konst i delta d = Ok d' /\ OI d0 d' /\ a_off d' = lset i (o + delta) (a_off d).
Proof.
  intros I H. assert (Hi : (i < length (a_off d))%nat) by (apply nth_error_Some; congruence).
  unfold add_to_offset, rget. rewrite H. cbn [rbind].
  destruct (rev_del_ok konst i o (a_rev d) (nth_error (a_off d)) H (oi_rev _ _ I)) as (r & -> & Hr). cbn [rbind].
  eexists. split; [reflexivity|]. split; [|reflexivity]. destruct I as [I1 I2 I3 I4 I5 I6]. constructor; cbn [a_dat a_dif a_odif a_osz a_dsz a_off a_rev].
  - exact I1.
  - eapply rp_snoc; [exact I2|]. now apply (rp_change zspec).
  - eapply RevI_ext; [|apply rev_add_ok; [|exact Hr]].
    + intros k. cbv beta. destruct (Nat.eqb_spec k i) as [->|N]; [now rewrite nth_error_lset_eq|]. now rewrite nth_error_lset_neq by auto.
    + cbv beta. now rewrite Nat.eqb_refl.
  - apply Forall_app. split; [exact I4|]. constructor; [|constructor]. cbn [uidx change]. lia.
  - now rewrite lset_length.
  - intros E. apply Forall_app. split; [auto|]. constructor; [|constructor]. split; discriminate.
Qed.
Lemma place_ok d0 d o : OI d0 d -> (length (a_off d) < n)%nat -> (length off0 < n)%nat -> OI d0 (place_offset konst o d).
Proof.
  intros [I1 I2 I3 I4 I5 I6] H H0. constructor; cbn [place_offset a_dat a_dif a_odif a_osz a_dsz a_off a_rev].
  - exact I1.
  - eapply rp_snoc; [exact I2|]. now apply rp_place.
  - eapply RevI_ext; [|apply rev_add_ok; [|exact I3]].
    + intros k. cbv beta. destruct (Nat.eqb_spec k (length (a_off d))) as [->|N]; [now rewrite nth_error_snoc|].
      destruct (Nat.lt_ge_cases k (length (a_off d))); [now rewrite nth_error_app1 by lia|].
      rewrite (proj2 (nth_error_None (a_off d) k)) by lia. symmetry. apply nth_error_None. rewrite app_length. cbn. lia.
    + apply nth_error_None. lia.
  - apply Forall_app. split; [exact I4|]. constructor; [|constructor]. cbn [uidx placement]. lia.
  - rewrite app_length. cbn [length]. lia.
  - lia.
Qed.
Lemma remove_ok d0 d : OI d0 d -> (n < length (a_off d))%nat -> (n < length off0)%nat ->
  exists d', remove_offset konst d = Ok d' /\ OI d0 d' /\ a_off d' = removelast (a_off d).
Proof.
  intros I H H0. destruct (snoc_cases (a_off d)) as [E|(l & o & E)]; [rewrite E in H; cbn in H; lia|].
  unfold remove_offset. destruct (a_off d) eqn:E2; [cbn in H; lia|]. rewrite <- E2 in *. rewrite E.
  rewrite last_last, removelast_last, app_length. cbn [length]. replace (length l + 1 - 1)%nat with (length l) by lia.
  destruct I as [I1 I2 I3 I4 I5 I6].
  destruct (rev_del_ok konst (length l) o (a_rev d) (nth_error (a_off d))) as (r & -> & Hr); [rewrite E; apply nth_error_snoc|exact I3|].
  cbn [rbind]. eexists. split; [reflexivity|]. split; [|reflexivity]. constructor; cbn [a_dat a_dif a_odif a_osz a_dsz a_off a_rev].
  - exact I1.
  - eapply rp_snoc; [exact I2|]. rewrite E. now apply (rp_remove zspec).
  - eapply RevI_ext; [|exact Hr]. intros k. cbv beta. rewrite E. destruct (Nat.eqb_spec k (length l)) as [->|N].
    + symmetry. apply nth_error_None. lia.
    + destruct (Nat.lt_ge_cases k (length l)); [now rewrite nth_error_app1 by lia|].
      rewrite (proj2 (nth_error_None l k)) by lia. apply nth_error_None. rewrite app_length. cbn. lia.
  - apply Forall_app. split; [exact I4|]. constructor; [|constructor]. cbn [uidx removal]. rewrite E, app_length in I5. cbn in I5. lia.
  - rewrite E, app_length in I5. cbn in I5. lia.
  - lia.
Qed.

Definition whole_placed (us : list (update num)) : Prop :=
  Forall (fun u => uold u = None -> forall x, uval u = Some x -> exists z, x = zq z) us.
Definition calm (us : list (update num)) : Prop := strict = false \/ Forall is_change us.

(** The offsets while an indexing array is processed. *)
Record JI (base : nat -> Z) (stride : Z) (start : list Z) (l : list num) (d : gdata) : Prop := {
  ji_min : (Nat.min (length l) n <= length (a_off d))%nat;
  ji_val : forall j, (j < n)%nat -> (j < length (a_off d))%nat -> nth_error (a_off d) j = Some (base j + stride * entry l j);
  ji_base : forall j, (length (a_off d) <= j)%nat -> base j = 0;
  ji_start : (length start <= length (a_off d))%nat;
  ji_hi : forall j, (n <= j)%nat -> nth_error (a_off d) j = nth_error start j }.

Lemma entry_rp l u l1 j : replay1 qeqb l u = Some l1 -> (j <> uidx u)%nat -> entry l1 j = entry l j.
Proof. intros H N. destruct (rp1_nth qeqb qeqb_spec _ _ _ H) as [_ E]. unfold entry. rewrite E. destruct (Nat.eqb_spec j (uidx u)); [contradiction|reflexivity]. Qed.

Lemma len_rp l u l1 : replay1 qeqb l u = Some l1 ->
  (uold u = None -> uidx u = length l /\ length l1 = S (length l)) /\ (uold u <> None -> (uidx u < length l)%nat /\ (length l1 <= length l)%nat) /\
  (is_change u -> length l1 = length l) /\ (uold u <> None -> uval u = None -> length l1 = uidx u).
Proof.
  intros H. apply (rp1_inv qeqb_spec) in H. destruct H as [o v E H ->|v -> ->|o -> ->].
  - destruct u as [i uo uv]. unfold change in E. cbn [uidx uold uval] in *. injection E as -> ->. rewrite lset_length. apply nth_error_lt in H. repeat split; try congruence; try lia.
  - cbn [uold uval uidx placement]. rewrite app_length. cbn [length]. repeat split; try congruence; try lia. intros [C _]. cbn in C. congruence.
  - cbn [uold uval uidx removal]. rewrite app_length. cbn [length]. repeat split; try congruence; try lia. intros [_ C]. cbn in C. congruence.
Qed.

Lemma idx_update_ok base stride start isfirst d0 d l u l1 :
  OI d0 d -> JI base stride start l d -> replay1 qeqb l u = Some l1 ->
  (isfirst = true \/ (n <= length (a_off d))%nat) -> length start = length off0 \/ (n <= length start)%nat ->
  whole_placed [u] -> calm [u] ->
  exists d', idx_update strict dbg konst isfirst stride n d u = Ok d' /\ OI d0 d' /\ JI base stride start l1 d' /\ (length (a_off d) <= length (a_off d'))%nat.
Proof.
  intros I J R F S W C. destruct (len_rp _ _ _ R) as (L1 & L2 & L3 & L4). destruct (rp1_nth qeqb qeqb_spec _ _ _ R) as [Old New].
  unfold idx_update. destruct (Nat.leb_spec n (uidx u)) as [H|H].
  { exists d. split; [reflexivity|]. split; [exact I|]. split; [|lia]. destruct J as [J1 J2 J3 J4 J5]. constructor; auto.
    - destruct (uold u) eqn:E; [|destruct (L1 eq_refl); lia]. destruct L2 as [? ?]; [congruence|]. lia.
    - intros j Hj Hl. rewrite (entry_rp _ _ _ _ R) by lia. auto. }
  destruct (Nat.eqb_spec (uidx u) (length (a_off d))) as [E|E].
  { destruct (uold u) as [ov|] eqn:Eo.
    { exfalso. destruct L2 as [? ?]; [congruence|]. pose proof (ji_min _ _ _ _ _ J). lia. }
    destruct (L1 eq_refl) as [L1a L1b]. destruct (uval u) as [x|] eqn:Ev; [|unfold replay1 in R; rewrite Eo, Ev in R; discriminate].
    assert (Ef : isfirst = true) by (destruct F; [assumption|lia]).
    unfold chk, placed. rewrite Eo, Ef. cbn [andb negb]. rewrite andb_false_r.
    apply Forall_inv in W. destruct (W Eo x Ev) as [z ->].
    eexists. split; [reflexivity|]. split; [|split].
    - apply place_ok; auto; [lia|]. pose proof (ji_start _ _ _ _ _ J). lia.
    - destruct J as [J1 J2 J3 J4 J5]. rewrite zq_mult, ztrunc_zq. constructor; cbn [place_offset a_off]; rewrite ?app_length; cbn [length]; try lia.
      + intros j Hj Hl. destruct (Nat.eqb_spec j (uidx u)) as [->|N].
        * rewrite E, nth_error_snoc. unfold entry. rewrite <- E, New, Nat.eqb_refl, ztrunc_zq. rewrite (J3 (uidx u)) by lia. f_equal.
        * rewrite nth_error_app1 by lia. rewrite (entry_rp _ _ _ _ R N). apply J2; lia.
      + intros j Hj. apply J3. lia.
      + intros j Hj. rewrite <- J5 by lia. rewrite (proj2 (nth_error_None (a_off d) j)) by lia. apply nth_error_None. rewrite app_length. cbn. lia.
    - cbn [place_offset a_off]. rewrite app_length. lia. }
  assert (Hl : (uidx u < length (a_off d))%nat).
  { pose proof (ji_min _ _ _ _ _ J). destruct (uold u) eqn:Eo; [destruct L2 as [? ?]; [congruence|lia]|destruct (L1 eq_refl); lia]. }
  unfold chk. destruct (Nat.ltb_spec (uidx u) (length (a_off d))); [|lia]. cbn [negb]. rewrite andb_false_r.
  pose proof (ji_val _ _ _ _ _ J (uidx u) H Hl) as V.
  assert (Ex : exists a b, cv strict (uold u) = Ok a /\ cv strict (uval u) = Ok b /\
                (if placed u then 0 else a) = entry l (uidx u) /\ (if placed u then b else if removed u then 0 else b) = entry l1 (uidx u)).
  { unfold entry. rewrite Old, New, Nat.eqb_refl. unfold cv, placed, removed. destruct C as [->|C].
    - destruct (uold u), (uval u); eexists _, _; repeat split; reflexivity.
    - apply Forall_inv in C. destruct C as [C1 C2]. destruct (uold u), (uval u); try congruence. eexists _, _; repeat split; reflexivity. }
  destruct Ex as (a & b & -> & -> & Ea & Eb). cbn [rbind]. rewrite Ea, Eb.
  destruct (add_ok d0 d (uidx u) (stride * (entry l1 (uidx u) - entry l (uidx u))) _ I V) as (d' & -> & I' & Eoff).
  exists d'. split; [reflexivity|]. split; [exact I'|]. rewrite Eoff, lset_length. split; [|lia].
  destruct J as [J1 J2 J3 J4 J5]. constructor; rewrite Eoff, ?lset_length; auto.
  - destruct (uold u) eqn:Eo; [destruct L2 as [? ?]; [congruence|lia]|destruct (L1 eq_refl); lia].
  - intros j Hj Hlj. destruct (Nat.eqb_spec j (uidx u)) as [->|N].
    + rewrite nth_error_lset_eq by exact Hl. f_equal. lia.
    + rewrite nth_error_lset_neq by auto. rewrite (entry_rp _ _ _ _ R N). auto.
  - intros j Hj. rewrite nth_error_lset_neq by lia. auto.
Qed.

Lemma idx_loop_ok base stride start isfirst d0 us : forall d l l',
  OI d0 d -> JI base stride start l d -> replay qeqb l us = Some l' ->
  (isfirst = true \/ (n <= length (a_off d))%nat) -> length start = length off0 \/ (n <= length start)%nat ->
  whole_placed us -> calm us ->
  exists d', rfold (idx_update strict dbg konst isfirst stride n) d us = Ok d' /\ OI d0 d' /\ JI base stride start l' d'.
Proof.
  induction us as [|u us IH]; intros d l l' I J R F S W C.
  - rewrite rp_nil in R. injection R as <-. exists d. cbn [rfold]. auto.
  - apply rp_cons_inv in R. destruct R as (l1 & R1 & R). cbn [rfold].
    inversion W as [|? ? W1 W2]; subst.
    assert (C1 : calm [u] /\ calm us).
    { destruct C as [C|C]; [split; now left|]. inversion C; subst. split; right; auto. }
    destruct C1 as [C1 C2].
    destruct (idx_update_ok base stride start isfirst d0 d l u l1 I J R1 F S) as (d1 & -> & I1 & J1 & L); [constructor; auto|exact C1|].
    cbn [rbind]. eapply IH; eauto. destruct F; [auto|right; lia].
Qed.

Lemma rem_ok d0 k : forall d, OI d0 d -> length (a_off d) = (n + k)%nat -> (k = 0 \/ n < length off0)%nat ->
  exists d', rem_offsets konst k d = Ok d' /\ OI d0 d' /\ a_off d' = firstn n (a_off d).
Proof.
  induction k as [|k IH]; intros d I L H.
  - exists d. split; [reflexivity|]. split; [exact I|]. rewrite firstn_all2 by lia. reflexivity.
  - cbn [rem_offsets]. destruct (remove_ok d0 d I) as (d1 & -> & I1 & E); [lia|lia|]. cbn [rbind].
    destruct (snoc_cases (a_off d)) as [E0|(l & o & E0)]; [rewrite E0 in L; cbn in L; lia|].
    rewrite E0, removelast_last in E. rewrite E0, app_length in L. cbn in L.
    destruct (IH d1 I1) as (d' & -> & I' & E'); [rewrite E; lia|lia|]. exists d'. split; [reflexivity|]. split; [exact I'|].
    rewrite E', E, E0. rewrite firstn_app. replace (n - length l)%nat with O by lia. cbn. now rewrite app_nil_r.
Qed.

(** The predecessors as far as this phase is concerned. *)
Definition arr_ok (n0 : nat) (l : list num) (p : pin num) : Prop :=
  replay qeqb l (pdiff p) = Some (pview p) /\ length l = n0 /\ length (pview p) = n /\ whole_placed (pdiff p) /\ calm (pdiff p).

(** After the first indexing array. *)
Lemma idx_rest_ok d0 acc spec : forall k str ls ps d,
  (ad_first A < k)%nat -> length str = length spec -> length ps = length (pick true spec str) ->
  Forall2 (arr_ok (length off0)) ls ps -> OI d0 d -> length (a_off d) = n ->
  (forall j, (j < n)%nat -> nth_error (a_off d) j = Some (acc j + contrib (pick true spec str) ls j)) ->
  exists d', idx_arrays strict dbg A konst k spec str n d ps = Ok d' /\ OI d0 d' /\ length (a_off d') = n /\
    forall j, (j < n)%nat -> nth_error (a_off d') j = Some (acc j + contrib (pick true spec str) (map (@pview num) ps) j).
Proof.
  revert acc; induction spec as [|[] spec IH]; intros acc k [|s str] ls ps d K L Lp F I Ln V; try discriminate L.
  - exists d. cbn [pick length] in Lp. destruct ps; [|discriminate]. cbn [idx_arrays pick map contrib] in *. split; [reflexivity|]. split; [exact I|]. split; [exact Ln|exact V].
  - cbn [pick Bool.eqb length] in *. destruct ps as [|p ps]; [discriminate|]. destruct ls as [|l ls']; [inversion F|]. apply f2c in F. destruct F as [(R & L0 & Lv & W & C) F2].
    cbn [idx_arrays]. unfold idx_array. rewrite Lv. destruct (Nat.eqb_spec k (ad_first A)); [lia|].
    unfold chk. rewrite Nat.eqb_refl. cbn [negb]. rewrite andb_false_r.
    cbn [contrib] in V.
    destruct (idx_loop_ok (fun j => if (j <? n)%nat then acc j + contrib (pick true spec str) ls' j else 0) s (a_off d) false d0 (pdiff p) d l (pview p) I) as (d1 & -> & I1 & J1); auto.
    { constructor; try lia.
      - intros j Hj _. destruct (Nat.ltb_spec j n); [|lia]. rewrite V by lia. f_equal. lia.
      - intros j Hj. destruct (Nat.ltb_spec j n); [lia|reflexivity].
      - reflexivity. }
    { right; lia. }
    { right; lia. }
    cbn [rbind]. pose proof (ji_start _ _ _ _ _ J1) as Js. pose proof (ji_hi _ _ _ _ _ J1) as Jh. 
    assert (Ln1 : length (a_off d1) = n).
    { assert (nth_error (a_off d1) n = None); [rewrite Jh by lia; apply nth_error_None; lia|]. apply nth_error_None in H. lia. }
    destruct (IH (fun j => acc j + s * entry (pview p) j) (S k) str ls' ps d1) as (d' & -> & I' & L' & V'); auto; try lia; try (cbn in *; lia).
    { intros j Hj. rewrite (ji_val _ _ _ _ _ J1) by lia. destruct (Nat.ltb_spec j n); [|lia]. f_equal. lia. }
    exists d'. split; [reflexivity|]. split; [exact I'|]. split; [exact L'|]. intros j Hj. rewrite V' by exact Hj. cbn [map contrib]. f_equal. lia.
  - cbn [pick Bool.eqb length idx_arrays] in *. apply (IH acc (S k) str ls ps d); auto; lia.
Qed.

Lemma entry_beyond l j : (length l <= j)%nat -> entry l j = 0.
Proof. intros H. unfold entry. now rewrite (proj2 (nth_error_None l j)) by lia. Qed.
Lemma contrib_beyond strs ls j : Forall (fun l => length l <= j)%nat ls -> contrib strs ls j = 0.
Proof. intros F; revert strs; induction F as [|l ls H F IH]; intros [|s strs]; cbn [contrib]; auto. rewrite IH, entry_beyond by exact H. lia. Qed.

(** All indexing arrays. *)
Lemma idx_all_ok d0 spec : forall k str ls ps d,
  ad_first A = (k + lead spec)%nat -> (lead spec < length spec)%nat -> length str = length spec -> length ps = length (pick true spec str) ->
  Forall2 (arr_ok (length off0)) ls ps -> OI d0 d -> a_off d = off0 ->
  (forall j, (j < length off0)%nat -> nth_error off0 j = Some (contrib (pick true spec str) ls j)) ->
  exists d', idx_arrays strict dbg A konst k spec str n d ps = Ok d' /\ OI d0 d' /\
    a_off d' = map (contrib (pick true spec str) (map (@pview num) ps)) (seq 0 n).
Proof.
  induction spec as [|[] spec IH]; intros k [|s str] ls ps d K Hl L Lp F I E V; try discriminate L; cbn [lead length] in *; try lia.
  - cbn [pick Bool.eqb length] in *. destruct ps as [|p ps]; [discriminate|]. destruct ls as [|l ls']; [inversion F|]. apply f2c in F. destruct F as [(R & L0 & Lv & W & C) F2].
    cbn [idx_arrays]. unfold idx_array. rewrite Lv. rewrite K, Nat.add_0_r, Nat.eqb_refl.
    unfold chk. rewrite Nat.eqb_refl. cbn [negb]. rewrite andb_false_r. cbn [contrib] in V.
    assert (Lls : forall j, (length off0 <= j)%nat -> contrib (pick true spec str) ls' j = 0).
    { intros j Hj. apply contrib_beyond. clear - F2 Hj. induction F2 as [|x y ls' ps H F IH]; constructor; auto. destruct H as (_ & H & _). lia. }
    destruct (idx_loop_ok (contrib (pick true spec str) ls') s off0 true d0 (pdiff p) d l (pview p) I) as (d1 & -> & I1 & J1); auto.
    { constructor; rewrite ?E; try lia; auto. intros j Hj Hj2. rewrite V by exact Hj2. f_equal. lia. }
    cbn [rbind]. pose proof (ji_min _ _ _ _ _ J1) as Jm. pose proof (oi_len _ _ I1) as Jl. pose proof (ji_start _ _ _ _ _ J1) as Js.
    destruct (rem_ok d0 (length (a_off d1) - n) d1 I1) as (d2 & -> & I2 & E2); [lia|lia|]. cbn [rbind].
    assert (Ln2 : length (a_off d2) = n) by (rewrite E2, firstn_length; lia).
    destruct (idx_rest_ok d0 (fun j => s * entry (pview p) j) spec (S k) str ls' ps d2) as (d' & -> & I' & L' & V'); auto; try lia.
    { intros j Hj. rewrite E2, nth_error_firstn. destruct (Nat.ltb_spec j n); [|lia]. rewrite (ji_val _ _ _ _ _ J1) by lia. f_equal. lia. }
    exists d'. split; [reflexivity|]. split; [exact I'|]. apply nth_error_ext. intros j. rewrite nth_error_map, nth_error_seq.
    destruct (Nat.ltb_spec j n) as [Hj|Hj]; [|apply nth_error_None; lia]. rewrite V' by exact Hj. reflexivity.
  - cbn [pick Bool.eqb length idx_arrays] in *. apply (IH (S k) str ls ps d); auto; lia.
Qed.
End Offsets.
