(** The data: fills, updates of the array, undoing. *)
From Coq Require Import Sorted.
From Verif Require Import Base SliceModel ShapeModel ShapeSpec ShapeProofs StateDataModel StateDataSpec StateDataProofs Replay NodeSpec BinaryModel Num QuadModel PermModel PermSpec PermProofs DedupModel DedupProofs DedupProps AdvModel AdvSpec AdvProofs AdvProofs3.
Local Open Scope Z_scope.

Definition dfl (x : option num) : num := match x with Some v => v | None => 0%Qc end.
Definition same_off (d0 d : gdata) : Prop :=
  a_odif d = a_odif d0 /\ a_osz d = a_osz d0 /\ a_dsz d = a_dsz d0 /\ a_off d = a_off d0 /\ a_rev d = a_rev d0.
Definition full (d : gdata) : Prop := Forall (fun x => x <> None) (a_dat d).

Lemma zget_in {X} (l : list X) z x : 0 <= z -> nth_error l (Z.to_nat z) = Some x -> zget l z = Ok x.
Proof. intros H E. unfold zget. destruct (Z.ltb_spec z 0); [lia|]. unfold rget. now rewrite E. Qed.

Lemma full_nth d p x : full d -> nth_error (a_dat d) p = Some x -> exists v, x = Some v.
Proof. intros F H. apply nth_error_In in H. unfold full in F. rewrite Forall_forall in F. specialize (F _ H). destruct x; [eauto|congruence]. Qed.
Lemma Forall_lset {X} (P : X -> Prop) i x l : Forall P l -> P x -> Forall P (lset i x l).
Proof.
  intros F Hx. apply Forall_forall. intros y Hy. apply In_nth_error in Hy. destruct Hy as [k Hk]. rewrite nth_error_lset in Hk.
  destruct (_ && _) in Hk.
  - injection Hk as <-. exact Hx.
  - apply nth_error_In in Hk. rewrite Forall_forall in F. auto.
Qed.

Section Data.
Variables strict dbg : bool.
Variable A : adv.
Variable konst : bool.
Variable v0 : list num.
Variable M : nat.
Variable fixed : Prop.
Record DI (d0 d : gdata) : Prop := {
  di_same : same_off d0 d;
  di_track : replay qeqb v0 (a_dif d) = Some (map dfl (a_dat d));
  di_idx : Forall (fun u => (uidx u < M)%nat) (a_dif d);
  di_fix : fixed -> Forall is_change (a_dif d) }.

Lemma fill_change_ok a d0 pts : forall d, DI d0 d -> full d -> (length (a_dat d) <= M)%nat -> NoDup (map fst pts) ->
  Forall (fun p => 0 <= fst p < Z.of_nat (length (a_dat d)) /\ 0 <= snd p < Z.of_nat (length a)) pts ->
  exists d', rfold (fill_point strict dbg FChange a) d pts = Ok d' /\ DI d0 d' /\ full d' /\ length (a_dat d') = length (a_dat d) /\
    (forall p, In p pts -> nth_error (a_dat d') (Z.to_nat (fst p)) = Some (nth_error a (Z.to_nat (snd p)))) /\
    (forall k, ~ In (Z.of_nat k) (map fst pts) -> nth_error (a_dat d') k = nth_error (a_dat d) k).
Proof.
  induction pts as [|[dst src] pts IH]; intros d I F L N R.
  - exists d. cbn [rfold map In]. split; [reflexivity|]. split; [exact I|]. split; [exact F|]. split; [reflexivity|]. split; [intros ? []|auto].
  - cbn [map fst] in N. inversion N as [|? ? N1 N2]; subst. inversion R as [|? ? [R1 R2] R3]; subst. cbn [fst snd] in R1, R2.
    destruct (@nth_error_get _ (Z.to_nat src) a) as [v Ev]; [lia|].
    destruct (@nth_error_get _ (Z.to_nat dst) (a_dat d)) as [o Eo]; [lia|].
    destruct (full_nth _ _ _ F Eo) as [o' ->].
    cbn [rfold]. unfold fill_point at 1. rewrite (zget_in a src v) by (auto; lia). cbn [rbind]. rewrite (zget_in (a_dat d) dst (Some o')) by (auto; lia). cbn [rbind].
    set (d1 := GData _ _ _ _ _ _ _). 
    destruct (IH d1) as (d' & -> & I' & F' & L' & W' & U').
    + destruct I as [I1 I2 I3 I4]. constructor; unfold d1; cbn [a_dat a_dif].
      * exact I1.
      * eapply rp_snoc; [exact I2|]. rewrite map_lset. cbn [dfl]. apply (rp_change qeqb_spec). rewrite nth_error_map, Eo. reflexivity.
      * apply Forall_app. split; [exact I3|]. constructor; [|constructor]. cbn [uidx]. lia.
      * intros X. apply Forall_app. split; [auto|]. constructor; [|constructor]. split; discriminate.
    + unfold full, d1; cbn [a_dat]. apply Forall_lset; [exact F|discriminate].
    + unfold d1; cbn [a_dat]. rewrite lset_length. exact L.
    + exact N2.
    + unfold d1; cbn [a_dat]. rewrite lset_length. exact R3.
    + exists d'. split; [reflexivity|]. split; [exact I'|]. split; [exact F'|]. unfold d1 in L', U'; cbn [a_dat] in L', U'. rewrite lset_length in L'. split; [exact L'|]. split.
      * intros p [<-|Hp]; [|auto]. cbn [fst snd]. rewrite U'.
        -- rewrite nth_error_lset_eq by lia. now rewrite Ev.
        -- rewrite Z2Nat.id by lia. exact N1.
      * intros k Hk. cbn [map fst In] in Hk. rewrite U' by tauto. apply nth_error_lset_neq. intros E. apply Hk. left. lia.
Qed.

Lemma fill_place_ok a d0 pts : forall d, DI d0 d -> full d -> ~ fixed -> (length (a_dat d) + length pts <= M)%nat ->
  map fst pts = map Z.of_nat (seq (length (a_dat d)) (length pts)) ->
  Forall (fun p => 0 <= snd p < Z.of_nat (length a)) pts ->
  exists d', rfold (fill_point strict dbg FPlace a) d pts = Ok d' /\ DI d0 d' /\ full d' /\
    a_dat d' = a_dat d ++ map (fun p => nth_error a (Z.to_nat (snd p))) pts.
Proof.
  induction pts as [|[dst src] pts IH]; intros d I F X L E R.
  - exists d. cbn [rfold map]. rewrite app_nil_r. auto.
  - inversion R as [|? ? R2 R3]; subst. cbn [fst snd] in R2. cbn [map fst length seq] in E. injection E as Ed E. cbn [length] in L.
    destruct (@nth_error_get _ (Z.to_nat src) a) as [v Ev]; [lia|].
    cbn [rfold]. unfold fill_point at 1. rewrite (zget_in a src v) by (auto; lia). cbn [rbind].
    destruct (Z.ltb_spec dst 0); [lia|]. unfold chk. replace (dst =? Z.of_nat (length (a_dat d))) with true by (symmetry; apply Z.eqb_eq; lia).
    cbn [negb]. rewrite andb_false_r. cbn [rbind].
    set (d1 := GData _ _ _ _ _ _ _).
    destruct (IH d1) as (d' & -> & I' & F' & E').
    + destruct I as [I1 I2 I3 I4]. constructor; unfold d1; cbn [a_dat a_dif].
      * exact I1.
      * eapply rp_snoc; [exact I2|]. rewrite map_app. cbn [map dfl]. apply rp_place. rewrite map_length. lia.
      * apply Forall_app. split; [exact I3|]. constructor; [|constructor]. cbn [uidx placement]. lia.
      * contradiction.
    + unfold full, d1; cbn [a_dat]. apply Forall_app. split; [exact F|]. constructor; [discriminate|constructor].
    + exact X.
    + unfold d1; cbn [a_dat]. rewrite app_length. cbn [length]. lia.
    + unfold d1; cbn [a_dat]. rewrite app_length. cbn [length]. rewrite Nat.add_1_r. exact E.
    + exact R3.
    + exists d'. split; [reflexivity|]. split; [exact I'|]. split; [exact F'|]. rewrite E'. unfold d1; cbn [a_dat map snd]. rewrite <- app_assoc, Ev. reflexivity.
Qed.

Lemma fill_remove_ok a d0 pts : strict = false -> forall d, DI d0 d -> full d -> ~ fixed -> (length (a_dat d) <= M)%nat ->
  (length pts <= length (a_dat d))%nat ->
  map fst pts = map Z.of_nat (rev (seq (length (a_dat d) - length pts) (length pts))) ->
  exists d', rfold (fill_point strict dbg FRemove a) d pts = Ok d' /\ DI d0 d' /\ full d' /\
    a_dat d' = firstn (length (a_dat d) - length pts) (a_dat d).
Proof.
  intros Hst. induction pts as [|[dst src] pts IH]; intros d I F X L Lp E.
  - exists d. cbn [rfold length]. rewrite Nat.sub_0_r, firstn_all. auto.
  - cbn [length] in *. rewrite seq_S, rev_app_distr in E. cbn [rev app map fst] in E. injection E as Ed E.
    destruct (snoc_cases (a_dat d)) as [C|(l & x & C)]; [rewrite C in Lp; cbn in Lp; lia|].
    assert (Ll : length (a_dat d) = S (length l)) by (rewrite C, app_length; cbn; lia).
    assert (En : nth_error (a_dat d) (length l) = Some x) by (rewrite C; apply nth_error_snoc).
    destruct (full_nth _ _ _ F En) as [v ->].
    cbn [rfold]. unfold fill_point at 1. rewrite Hst. cbn [rbind].
    unfold chk. replace (dst =? Z.of_nat (length (a_dat d)) - 1) with true by (symmetry; apply Z.eqb_eq; lia).
    cbn [negb]. rewrite andb_false_r. rewrite (zget_in (a_dat d) dst (Some v)); [|lia|replace (Z.to_nat dst) with (length l) by lia; exact En].
    cbn [rbind]. set (d1 := GData _ _ _ _ _ _ _).
    assert (Ed1 : a_dat d1 = l) by (unfold d1; cbn [a_dat]; rewrite C, removelast_last; reflexivity).
    destruct (IH d1) as (d' & E1 & I' & F' & E').
    + destruct I as [I1 I2 I3 I4]. constructor.
      * exact I1.
      * rewrite Ed1. unfold d1; cbn [a_dif]. eapply rp_snoc; [exact I2|]. rewrite C, map_app. cbn [map dfl].
        apply (rp_remove qeqb_spec). rewrite map_length. lia.
      * unfold d1; cbn [a_dif]. apply Forall_app. split; [exact I3|]. constructor; [|constructor]. cbn [uidx]. lia.
      * contradiction.
    + unfold full. rewrite Ed1. unfold full in F. rewrite C in F. apply Forall_app in F. apply F.
    + exact X.
    + rewrite Ed1. lia.
    + rewrite Ed1. lia.
    + rewrite Ed1. replace (length l - length pts)%nat with (length (a_dat d) - S (length pts))%nat by lia. exact E.
    + exists d'. rewrite Hst in E1. rewrite E1. split; [reflexivity|]. split; [exact I'|]. split; [exact F'|]. rewrite E', Ed1, C, app_length. cbn [length].
      rewrite firstn_app. replace (length l + 1 - S (length pts))%nat with (length l - length pts)%nat by lia.
      replace (length l - length pts - length l)%nat with O by lia. cbn [firstn]. now rewrite app_nil_r.
Qed.

(** Updates of the array. *)
Section Par.
Variable b2 : bool.
Variable U : list nat.
Variable lim : nat.
Variable a' : list num.
Variable n : nat.
Variable S : list (list Z).
Variables pos src : nat -> list Z -> nat.
Variable off : list Z.
Hypothesis Hoff : length off = n.
Hypothesis Hk : konst = false.
Hypothesis Hmap : forall i, (i < lim)%nat -> exists o k,
  mapped A (ad_spec A) (ad_istr A) (cur_shape A a') 0 false (Z.of_nat i) (0, 0) = Ok (o, k) /\
  (forall j, nth_error off j = Some o -> exists sub, In sub S /\ Z.of_nat j * ad_ss A + k = Z.of_nat (pos j sub) /\ src j sub = i) /\
  (forall j sub, (j < n)%nat -> In sub S -> src j sub = i -> nth_error off j = Some o /\ Z.of_nat (pos j sub) = Z.of_nat j * ad_ss A + k).
Hypothesis Hinj : forall j sub j' sub', (j < n)%nat -> (j' < n)%nat -> In sub S -> In sub' S -> pos j sub = pos j' sub' -> j = j' /\ sub = sub'.
Hypothesis Hsrc : forall j sub, (j < n)%nat -> In sub S -> (src j sub < lim)%nat.

Definition free (j : nat) : Prop := (j < n)%nat /\ ~ In j U.
Record PI (d0 : gdata) (start : list (option num)) (l : list num) (d : gdata) : Prop := {
  pi_di : DI d0 d;
  pi_len : length (a_dat d) = length start;
  pi_val : forall j sub, free j -> In sub S -> nth_error (a_dat d) (pos j sub) = Some (nth_error l (src j sub));
  pi_rest : forall p, (forall j sub, free j -> In sub S -> p <> pos j sub) -> nth_error (a_dat d) p = nth_error start p }.

Lemma off_lt j o : nth_error off j = Some o -> (j < n)%nat.
Proof. intros H. rewrite <- Hoff. apply nth_error_Some. congruence. Qed.

Lemma par_points_ok d0 u k o js : forall d,
  DI d0 d -> (length (a_dat d) <= M)%nat -> NoDup js ->
  (forall j, In j js -> exists sub, In sub S /\ Z.of_nat j * ad_ss A + k = Z.of_nat (pos j sub) /\ nth_error off j = Some o /\
     (~ In j U -> nth_error (a_dat d) (pos j sub) = Some (uold u))) ->
  (uold u <> None \/ uval u <> None) ->
  (b2 = false -> js <> [] -> is_change u) ->
  exists d', rfold (par_point dbg A b2 U k u) d js = Ok d' /\ DI d0 d' /\ length (a_dat d') = length (a_dat d) /\
    (forall j, In j js -> ~ In j U -> nth_error (a_dat d') (Z.to_nat (Z.of_nat j * ad_ss A + k)) = Some (uval u)) /\
    (forall p, (forall j, In j js -> ~ In j U -> p <> Z.to_nat (Z.of_nat j * ad_ss A + k)) -> nth_error (a_dat d') p = nth_error (a_dat d) p).
Proof.
  induction js as [|j js IH]; intros d I L N H NN C.
  - exists d. cbn [rfold]. split; [reflexivity|]. split; [exact I|]. split; [reflexivity|]. split; [intros ? []|auto].
  - apply NoDup_cons_iff in N. destruct N as [N1 N2]. cbn [rfold]. unfold par_point at 1.
    destruct (existsb (Nat.eqb j) U) eqn:EU.
    + assert (HU : In j U) by (apply existsb_exists in EU; destruct EU as (y & Hy & Ey); apply Nat.eqb_eq in Ey; now subst).
      cbn [rbind]. destruct (IH d) as (d' & E & I' & L' & W & R); auto.
      { intros j' Hj'. apply H. now right. }
      { intros B _. apply C; [exact B|discriminate]. }
      exists d'. split; [exact E|]. split; [exact I'|]. split; [exact L'|]. split.
      * intros j' [<-|Hj'] HnU; [contradiction|auto].
      * intros p Hp. apply R. intros j' Hj'. apply Hp. now right.
    + assert (HU : ~ In j U).
      { intros C'. assert (existsb (Nat.eqb j) U = true) by (apply existsb_exists; exists j; split; [exact C'|apply Nat.eqb_refl]). congruence. }
      destruct (H j (or_introl eq_refl)) as (sub & Hs & Ep & Eo & Ev). specialize (Ev HU).
      rewrite Ep. rewrite (zget_in (a_dat d) (Z.of_nat (pos j sub)) (uold u)); [|lia|now rewrite Nat2Z.id]. rewrite Nat2Z.id. cbn [rbind].
      assert (Hpos : (pos j sub < length (a_dat d))%nat) by (apply nth_error_Some; congruence).
      unfold chk. match goal with |- context [dbg && negb ?c] => assert (Ec : c = true) end.
      { unfold veq, placed. destruct (uold u) as [x|] eqn:Eu.
        - destruct (qeqb_spec x x); [reflexivity|congruence].
        - destruct b2; [reflexivity|]. destruct C as [C1 _]; [reflexivity|discriminate|congruence]. }
      rewrite Ec. cbn [negb]. rewrite andb_false_r. cbn [rbind]. set (d1 := GData _ _ _ _ _ _ _).
      destruct (IH d1) as (d' & E & I' & L' & W & R).
      * destruct I as [I1 I2 I3 I4].
        assert (Up : exists x y, Upd (pos j sub) (olda b2 (uold u)) (olda b2 (uval u)) = change (pos j sub) x y /\ x = dfl (uold u) /\ y = dfl (uval u)).
        { unfold olda, change, dfl. destruct b2.
          - eexists _, _; repeat split.
          - destruct C as [C1 C2]; [reflexivity|discriminate|]. destruct (uold u), (uval u); try congruence. eexists _, _; repeat split. }
        destruct Up as (x & y & Eq & -> & ->). unfold d1. rewrite Eq. constructor; cbn [a_dat a_dif].
        -- exact I1.
        -- eapply rp_snoc; [exact I2|]. rewrite map_lset. apply (rp_change qeqb_spec). rewrite nth_error_map, Ev. reflexivity.
        -- apply Forall_app. split; [exact I3|]. constructor; [|constructor]. cbn [uidx change]. lia.
        -- intros X. apply Forall_app. split; [auto|]. constructor; [|constructor]. split; discriminate.
      * unfold d1; cbn [a_dat]. now rewrite lset_length.
      * exact N2.
      * intros j' Hj'. destruct (H j' (or_intror Hj')) as (sub' & Hs' & Ep' & Eo' & Ev'). exists sub'. split; [exact Hs'|]. split; [exact Ep'|]. split; [exact Eo'|]. intros HU'.
        unfold d1; cbn [a_dat]. rewrite nth_error_lset_neq; [auto|].
        intros Eq. apply Hinj in Eq; auto; try (eapply off_lt; eassumption). destruct Eq as [<- _]. contradiction.
      * exact NN.
      * intros B _. apply C; [exact B|discriminate].
      * exists d'. split; [exact E|]. split; [exact I'|]. unfold d1 in L'; cbn [a_dat] in L'. rewrite lset_length in L'. split; [exact L'|]. split.
        -- intros j' [<-|Hj'] HnU; [|auto]. rewrite R.
           ++ unfold d1; cbn [a_dat]. rewrite Ep, Nat2Z.id. rewrite nth_error_lset_eq by exact Hpos. reflexivity.
           ++ intros j' Hj' HU'. destruct (H j' (or_intror Hj')) as (sub' & Hs' & Ep' & Eo' & _). rewrite Ep, Ep', !Nat2Z.id.
              intros Eq. apply Hinj in Eq; auto; try (eapply off_lt; eassumption). destruct Eq as [<- _]. contradiction.
        -- intros p Hp. rewrite R.
           ++ unfold d1; cbn [a_dat]. apply nth_error_lset_neq. intros <-. apply (Hp j (or_introl eq_refl) HU). rewrite Ep, Nat2Z.id. reflexivity.
           ++ intros j' Hj' HU'. apply Hp; [now right|exact HU'].
Qed.

Lemma par_update_ok d0 start l u l1 d :
  PI d0 start l d -> a_off d0 = off -> RevI konst (a_rev d0) (nth_error off) -> (length start <= M)%nat ->
  replay1 qeqb l u = Some l1 ->
  (b2 = false -> (exists j sub, (j < n)%nat /\ In sub S /\ src j sub = uidx u) -> is_change u) ->
  exists d', par_update dbg A konst b2 U lim a' d u = Ok d' /\ PI d0 start l1 d'.
Proof.
  intros P Eoff HR HM R C. destruct (rp1_nth qeqb qeqb_spec _ _ _ R) as [Old New]. unfold par_update.
  assert (NN : uold u <> None \/ uval u <> None).
  { unfold replay1 in R. destruct (uold u), (uval u); try discriminate; [left|left|right]; discriminate. }
  destruct (Nat.leb_spec lim (uidx u)) as [H|H].
  { exists d. split; [reflexivity|]. destruct P as [P1 P2 P3 P4]. constructor; auto. intros j sub Hj Hs. rewrite P3 by auto. rewrite New.
    destruct (Nat.eqb_spec (src j sub) (uidx u)) as [E|]; [|reflexivity]. specialize (Hsrc j sub (proj1 Hj) Hs). lia. }
  destruct (Hmap _ H) as (o & k & -> & Hfw & Hbw). cbn [rbind fst snd].
  unfold chk. rewrite Hk. cbn [negb]. rewrite andb_false_r.
  destruct P as [P1 P2 P3 P4]. pose proof (di_same _ _ P1) as (_ & _ & _ & So & Sr).
  rewrite Sr. destruct (HR Hk o) as [Nd Hin].
  assert (Hlt : forall j, In j (a_rev d0 o) -> (j < n)%nat) by (intros j Hj; rewrite <- Hoff; apply nth_error_Some; apply Hin in Hj; congruence).
  destruct (par_points_ok d0 u k o (a_rev d0 o) d P1) as (d' & E & I' & L' & W & Rst); auto.
  - lia.
  - intros j Hj. pose proof (proj1 (Hin j) Hj) as Ej. destruct (Hfw j Ej) as (sub & Hs & Ep & Es). exists sub. repeat split; auto.
    intros HU. rewrite P3 by (unfold free; auto). now rewrite Es, Old.
  - intros B Hne. apply C; [exact B|]. destruct (a_rev d0 o) as [|j js] eqn:Er; [congruence|].
    destruct (Hfw j) as (sub & Hs & _ & Es); [apply Hin; now left|]. exists j, sub. split; [apply Hlt; now left|auto].
  - exists d'. split; [exact E|]. constructor.
    + exact I'.
    + lia.
    + intros j sub [Hj HU] Hs. destruct (Nat.eq_dec (src j sub) (uidx u)) as [Es|Es].
      * destruct (Hbw j sub Hj Hs Es) as [Eo Ep]. rewrite New, Es, Nat.eqb_refl. rewrite <- W with (j := j); auto; [|now apply Hin].
        f_equal. lia.
      * rewrite New. destruct (Nat.eqb_spec (src j sub) (uidx u)); [contradiction|]. rewrite <- P3 by (unfold free; auto). apply Rst.
        intros j' Hj' HU' Eq. destruct (Hfw j' (proj1 (Hin j') Hj')) as (sub' & Hs' & Ep' & Es'). rewrite Ep', Nat2Z.id in Eq.
        apply Hinj in Eq; auto. destruct Eq as [<- <-]. contradiction.
    + intros p Hp. rewrite <- P4 by exact Hp. apply Rst. intros j Hj HU. destruct (Hfw j (proj1 (Hin j) Hj)) as (sub & Hs & Ep & Es).
      rewrite Ep, Nat2Z.id. apply Hp; [split; auto|exact Hs].
Qed.

Lemma par_loop_ok d0 start us : forall l l' d,
  PI d0 start l d -> a_off d0 = off -> RevI konst (a_rev d0) (nth_error off) -> (length start <= M)%nat ->
  replay qeqb l us = Some l' ->
  (b2 = false -> Forall (fun u => (exists j sub, (j < n)%nat /\ In sub S /\ src j sub = uidx u) -> is_change u) us) ->
  exists d', rfold (par_update dbg A konst b2 U lim a') d us = Ok d' /\ PI d0 start l' d'.
Proof.
  induction us as [|u us IH]; intros l l' d P Eo HR HM R C.
  - rewrite rp_nil in R. injection R as <-. exists d. split; [reflexivity|exact P].
  - apply rp_cons_inv in R. destruct R as (l1 & R1 & R). cbn [rfold].
    destruct (par_update_ok d0 start l u l1 d P Eo HR HM R1) as (d1 & -> & P1).
    + intros B. specialize (C B). inversion C; auto.
    + cbn [rbind]. eapply IH; eauto. intros B. specialize (C B). inversion C; auto.
Qed.
End Par.
End Data.

(** The deduplicated updates of the offsets. *)
Lemma dedup_total off0 us off' : replay Z.eqb off0 us = Some off' ->
  Forall (fun u => (uidx u < Nat.max (length off0) (length off'))%nat) us ->
  exists r, deduplicate_diff Z.eqb us = Some r.
Proof.
  intros R F. destruct (deduplicate_diff Z.eqb us) as [r|] eqn:E; [eauto|]. exfalso.
  destruct (dedup_none Z.eqb zspec (nth_error off0) (nth_error off')) with (us := us) as (h & Hh & _ & Ha & Hb & _); auto.
  - intros i j Ha Hb Hij. split; eapply nth_none_up; eauto.
  - intros i. eapply replay_chain; eauto. exact zspec.
  - rewrite Forall_forall in F. specialize (F h Hh). apply nth_error_None in Ha, Hb. lia.
Qed.

(** Undoing. *)
Lemma undo_dat_ok v0 us : forall v buf, replay qeqb v0 us = Some v -> (length v <= length buf)%nat -> firstn (length v) buf = map Some v ->
  Forall (fun u => (uidx u < length buf)%nat) us ->
  exists buf', rfold undo_dat buf (rev us) = Ok buf' /\ length buf' = length buf /\ firstn (length v0) buf' = map Some v0.
Proof.
  induction us as [|u us IH] using rev_ind; intros v buf R L F H.
  - rewrite rp_nil in R. injection R as <-. exists buf. auto.
  - apply rp_app_inv in R. destruct R as (v1 & R1 & R). apply rp_cons_inv in R. destruct R as (v2 & Ru & R). rewrite rp_nil in R. injection R as ->.
    apply Forall_app in H. destruct H as [H1 H2]. apply Forall_inv in H2. rewrite rev_app_distr. cbn [rev app rfold]. unfold undo_dat at 1.
    destruct (Nat.ltb_spec (uidx u) (length buf)) as [_|]; [|lia]. cbn [rbind].
    destruct (rp1_nth qeqb qeqb_spec _ _ _ Ru) as [Old New]. destruct (len_rp _ _ _ Ru) as (L1 & L2 & L3 & L4).
    assert (Lv1 : (length v1 <= length buf)%nat).
    { destruct (uold u) eqn:Eo; [|destruct (L1 eq_refl); lia]. destruct (uval u) eqn:Ev.
      - rewrite <- L3; [lia|]. split; congruence.
      - apply (rp1_inv qeqb_spec) in Ru. destruct Ru as [? ? E ? ?|? -> ?|? -> ->]; [rewrite E in Ev; discriminate|discriminate|]. rewrite app_length. cbn [uidx removal length] in *. lia. }
    destruct (IH v1 (lset (uidx u) (uold u) buf) R1) as (buf' & E & Lb & Fb).
    + now rewrite lset_length.
    + apply nth_error_ext. intros j. rewrite nth_error_firstn, nth_error_map. destruct (Nat.ltb_spec j (length v1)) as [Hj|Hj].
      * destruct (Nat.eq_dec j (uidx u)) as [->|N].
        -- rewrite nth_error_lset_eq by exact H2. rewrite Old. destruct (uold u) as [x|] eqn:Eo; [reflexivity|]. apply nth_error_None in Old. lia.
        -- rewrite nth_error_lset_neq by auto. assert (Ej : nth_error v j = nth_error v1 j) by (rewrite New; destruct (Nat.eqb_spec j (uidx u)); [contradiction|reflexivity]).
           rewrite <- Ej. assert (Hv : (j < length v)%nat) by (apply nth_error_Some; rewrite Ej; apply nth_error_Some; exact Hj).
           pose proof (f_equal (fun l => nth_error l j) F) as Fj. cbv beta in Fj. rewrite nth_error_firstn, nth_error_map in Fj.
           destruct (Nat.ltb_spec j (length v)); [exact Fj|lia].
      * rewrite (proj2 (nth_error_None v1 j)) by lia. reflexivity.
    + rewrite lset_length. exact H1.
    + exists buf'. rewrite lset_length in Lb. auto.
Qed.

Section UndoOff.
Variables strict konst : bool.
Variables off0 off' : list Z.
(** One element of the list of updates per index, each with the element before and after. *)
Lemma undo_off_ok us : forall buf r g,
  NoDup (map (@uidx Z) us) ->
  Forall (fun u => (uidx u < length buf)%nat /\ uold u = nth_error off0 (uidx u) /\ uval u = nth_error off' (uidx u)) us ->
  (strict = false \/ Forall is_change us) ->
  RevI konst r g -> (forall u, In u us -> g (uidx u) = uval u) ->
  exists buf' r', rfold (undo_off strict konst) (buf, r) us = Ok (buf', r') /\ length buf' = length buf /\
    (forall j, ~ In j (map (@uidx Z) us) -> nth_error buf' j = nth_error buf j) /\
    (forall u o, In u us -> uold u = Some o -> nth_error buf' (uidx u) = Some o) /\
    RevI konst r' (fun j => if existsb (Nat.eqb j) (map (@uidx Z) us) then nth_error off0 j else g j).
Proof.
  induction us as [|u us IH]; intros buf r g N H S HR G.
  - exists buf, r. split; [reflexivity|]. split; [reflexivity|]. split; [auto|]. split; [intros ? ? []|]. exact HR.
  - cbn [map] in N. inversion N as [|? ? N1 N2]; subst. inversion H as [|? ? (H1 & H2 & H3) H4]; subst. cbn [rfold]. unfold undo_off at 1.
    assert (E1 : exists z, match uold u with Some o => Ok o | None => if strict then UB else Ok 0 end = Ok z /\ (forall o, uold u = Some o -> z = o)).
    { destruct (uold u) as [o|] eqn:Eo; [exists o; split; [reflexivity|congruence]|]. destruct S as [->|S]; [exists 0; split; [reflexivity|discriminate]|].
      apply Forall_inv in S. destruct S as [S _]. congruence. }
    destruct E1 as (z & -> & Hz). cbn [rbind]. destruct (Nat.ltb_spec (uidx u) (length buf)) as [_|]; [|lia].
    assert (E2 : exists r1, match uval u with Some v => rev_del konst (uidx u) v r | None => Ok r end = Ok r1 /\
                  RevI konst r1 (fun j => if (j =? uidx u)%nat then None else g j)).
    { specialize (G u (or_introl eq_refl)). destruct (uval u) as [v|] eqn:Ev.
      - apply rev_del_ok; auto.
      - exists r. split; [reflexivity|]. eapply RevI_ext; [|exact HR]. intros j. cbv beta. destruct (Nat.eqb_spec j (uidx u)) as [->|]; auto. }
    destruct E2 as (r1 & -> & HR1). cbn [rbind].
    set (r2 := match uold u with Some o => rev_add konst (uidx u) o r1 | None => r1 end).
    assert (HR2 : RevI konst r2 (fun j => if (j =? uidx u)%nat then nth_error off0 (uidx u) else g j)).
    { unfold r2. rewrite <- H2. destruct (uold u) as [o|] eqn:Eo; [|exact HR1].
      eapply RevI_ext; [|apply rev_add_ok; [|exact HR1]]; cbv beta; [|now rewrite Nat.eqb_refl].
      intros j. destruct (Nat.eqb_spec j (uidx u)); reflexivity. }
    destruct (IH (lset (uidx u) z buf) r2 (fun j => if (j =? uidx u)%nat then nth_error off0 (uidx u) else g j) N2) as (buf' & r' & E & Lb & Rst & W & HR').
    + rewrite lset_length. exact H4.
    + destruct S as [S|S]; [now left|]. right. inversion S; auto.
    + exact HR2.
    + intros u' Hu'. cbv beta. destruct (Nat.eqb_spec (uidx u') (uidx u)) as [E'|]; [|apply G; now right].
      exfalso. apply N1. rewrite <- E'. apply in_map. exact Hu'.
    + exists buf', r'. rewrite lset_length in Lb. split; [exact E|]. split; [exact Lb|]. split; [|split].
      * intros j Hj. cbn [map In] in Hj. rewrite Rst by tauto. apply nth_error_lset_neq. intros Eq. apply Hj. left. exact Eq.
      * intros u' o [<-|Hu'] Eo; [|eauto]. rewrite Rst by exact N1. rewrite nth_error_lset_eq by exact H1. now rewrite (Hz o Eo).
      * eapply RevI_ext; [|exact HR']. intros j. cbn [map existsb]. destruct (existsb (Nat.eqb j) (map (@uidx Z) us)) eqn:Ex; [now rewrite orb_true_r|].
        rewrite orb_false_r. destruct (Nat.eqb_spec j (uidx u)) as [->|]; reflexivity.
Qed.
End UndoOff.
