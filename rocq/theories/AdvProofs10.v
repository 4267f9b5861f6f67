(** One step of the node, its commit and its revert. *)
From Coq Require Import Sorted.
From Verif Require Import Base SliceModel ShapeModel ShapeSpec ShapeProofs StateDataModel StateDataSpec Replay NodeSpec BinaryModel Num QuadModel PermModel PermSpec PermProofs DedupModel DedupProps AdvModel AdvSpec AdvProofs AdvProofs2 AdvProofs3 AdvProofs4 AdvProofs5 AdvProofs6 AdvProofs7 AdvProofs8 AdvProofs9.
Local Open Scope Z_scope.

Lemma all_some_map {X} (v : list X) : all_some (map Some v) = Some v.
Proof. induction v as [|x v IH]; [reflexivity|]. cbn [map all_some]. now rewrite IH. Qed.
Lemma pins_repeat s c (ls : list (list num)) ps : Forall2 (fun si p => pin_ok qeqb (fst si) (snd si) p) (combine (repeat s c) ls) ps -> length ls = c ->
  Forall2 (fun l p => pin_ok qeqb s l p) ls ps.
Proof.
  revert ls ps; induction c as [|c IH]; intros ls ps H L; destruct ls as [|l ls]; try discriminate L; cbn [repeat combine] in H.
  - inversion H; constructor.
  - inversion H as [|? ? ? ? H1 H2]; subst. constructor; [exact H1|]. apply IH; auto.
Qed.
Lemma f2_repeat {X Y} (P : X -> Y -> Prop) s c l : Forall (P s) l -> length l = c -> Forall2 P (repeat s c) l.
Proof. intros F <-. induction F; cbn [length repeat]; constructor; auto. Qed.
Lemma seq_map_len {X} (f : nat -> X) n : length (map f (seq 0 n)) = n.
Proof. now rewrite map_length, seq_length. Qed.
Lemma resize_cut {X} k (pad : X) l : (k <= length l)%nat -> resize k pad l = firstn k l.
Proof. intros H. unfold resize. replace (k - length l)%nat with O by lia. cbn. apply app_nil_r. Qed.
Lemma resize_len {X} k (pad : X) l : length (resize k pad l) = k.
Proof. unfold resize. rewrite app_length, firstn_length, repeat_length. lia. Qed.
(** A buffer made at least [k] long. *)
Definition grown {X} (k : nat) (pad : X) (l : list X) : list X := if (length l <? k)%nat then resize k pad l else l.
Lemma grown_len {X} k (pad : X) l : length (grown k pad l) = Nat.max k (length l).
Proof. unfold grown. destruct (Nat.ltb_spec (length l) k); [rewrite resize_len|]; lia. Qed.
Lemma grown_first {X} k (pad : X) l : firstn (length l) (grown k pad l) = l.
Proof.
  unfold grown. destruct (Nat.ltb_spec (length l) k); [|apply firstn_all]. unfold resize. rewrite (firstn_all2 l) by lia.
  rewrite firstn_app, Nat.sub_diag, firstn_all. cbn. apply app_nil_r.
Qed.
Lemma cut_grown {X} k (pad : X) l : length l = Nat.max k (length l) -> (if (k <? length l)%nat then resize k pad l else l) = firstn k l.
Proof. intros H. destruct (Nat.ltb_spec k (length l)); [apply resize_cut; lia|]. symmetry. apply firstn_all2. lia. Qed.

Section Wrap.
Variables strict dbg : bool.
Variable A : adv.
Hypothesis OK : adv_ok A.
Variable konst : bool.
Hypothesis SUP : supported A konst.
Hypothesis WF : wf_shape (ad_shape A).
Variable m : nat.
Hypothesis SAFE1 : strict = true -> dynamic (ad_ishape A) = false.
Hypothesis SAFE2 : strict = true -> ad_b1 A = false -> dynamic (ad_shape A) = false.
Notation N := (adv_node strict dbg A konst).
Notation F := (adv_fun (ad_shape A) m (ad_spec A)).

Lemma out_fits inp v a arrs n : Good A m inp v a arrs n -> nfit A n -> fits (ad_shape A) a -> fits (ad_oshape A) v.
Proof.
  intros G Nf Fa. pose proof (g_vlen _ _ _ _ _ _ _ G) as Hv. unfold fits, fits_len. rewrite (ok_oshape _ OK).
  destruct (ad_b1 A) eqn:B.
  - pose proof (b1_sls A OK konst SUP WF (length a) B) as Es. pose proof (sls_nonneg A WF (length a)) as Pn. rewrite Es in Hv, Pn.
    unfold nfit, fits_len in Nf. pose proof (ok_ind _ OK) as Li. pose proof (ok_ind1 _ OK) as Li1.
    destruct (ad_ishape A) as [|x [|]]; [| |cbn in Li; lia]; cbn [app dynamic tl] in *.
    + change (prod []) with 1 in Nf. destruct (pick false (ad_spec A) (ad_shape A)) as [|y q]; cbn [dynamic]; [lia|].
      apply Forall_inv in Pn. destruct (Z.ltb_spec y 0); lia.
    + destruct (Z.ltb_spec x 0).
      * exists (Z.of_nat n). split; [lia|exact Hv].
      * cbn [prod] in Nf |- *. change (prod []) with 1 in Nf. lia.
  - destruct (b2_sls A OK WF (length a) B) as (d & t & s & E1 & E2 & E3 & E4). destruct (b2_facts A OK B) as (_ & _ & _ & Hl).
    pose proof (ok_fix _ OK B) as Hf. pose proof (ok_ind _ OK) as Li. destruct (b2_facts A OK B) as (_ & _ & I1 & _).
    unfold nfit, fits_len in Nf. rewrite Hf in Nf. destruct (ad_ishape A) as [|x [|]]; cbn [length] in Li; try lia. cbn [prod hd] in Nf |- *. change (prod []) with 1 in Nf.
    rewrite E3. rewrite E4 in Hv. destruct (lead (ad_spec A)) as [|l]; [lia|]. rewrite ins_S. cbn [dynamic tl prod]. rewrite prod_ins.
    cbn [prod] in Hv. destruct (Z.ltb_spec d 0) as [Hd|Hd].
    + exists (Z.of_nat (length a) / prod t). destruct (wf_tl A WF d t E1) as [_ Pt]. split; [apply Z.div_pos; lia|]. rewrite Hv. replace (Z.of_nat n) with x by lia. ring.
    + rewrite Hv. replace (Z.of_nat n) with x by lia. ring.
Qed.

Lemma step_ok inp0 v0 d0 a0 arrs0 n0 pins v1 : Cl A konst m inp0 v0 d0 a0 arrs0 n0 ->
  Forall2 (fun si p => pin_ok qeqb (fst si) (snd si) p) (combine (nd_pre N) inp0) pins -> length (nd_pre N) = length inp0 ->
  adv_moves konst (ad_shape A) m (ad_spec A) pins -> F (map (@pview num) pins) = Some v1 ->
  exists d3 a1 arrs1 n1 us, adv_prop strict dbg A konst d0 pins = Ok d3 /\
    Good A m (map (@pview num) pins) v1 a1 arrs1 n1 /\ nfit A n1 /\ fits (ad_shape A) a1 /\
    DI v0 (Nat.max (length v0) (length v1)) (dynamic (ad_oshape A) = false) d3 d3 /\ a_dat d3 = map Some v1 /\
    a_odif d3 = us /\ a_osz d3 = n0 /\ a_dsz d3 = length v0 /\ a_off d3 = map (contrib (strs A) arrs1) (seq 0 n1) /\
    RevI konst (a_rev d3) (nth_error (a_off d3)) /\
    StronglySorted lt (map (@uidx Z) us) /\
    (forall u, In u us -> uold u = nth_error (a_off d0) (uidx u) /\ uval u = nth_error (a_off d3) (uidx u) /\ ~ (uold u = None /\ uval u = None)) /\
    (forall i, nth_error (a_off d0) i <> nth_error (a_off d3) i -> In i (map (@uidx Z) us)).
Proof.
  intros C Hp Lp Mv Fv. destruct C as [G0 N0 F0 Cd Cf Co Cs Cz Coff Crev].
  pose proof (g_inp _ _ _ _ _ _ _ G0) as Ei. subst inp0. unfold adv_node in Hp, Lp. cbn [nd_pre] in Hp, Lp. cbn [combine] in Hp.
  destruct pins as [|pa ps]; [inversion Hp|]. apply f2c in Hp. destruct Hp as [Ppa Pps]. cbn [fst snd] in Ppa.
  cbn [length] in Lp. injection Lp as Lp. rewrite repeat_length in Lp. apply pins_repeat in Pps; [|auto].
  assert (Lps : length ps = length arrs0) by (clear -Pps; induction Pps; cbn; congruence).
  destruct Mv as (Mk & Mm & Mw).
  destruct (F_good A OK konst SUP WF m _ v1 Fv) as (a1 & arrs1 & n1 & G1 & N1 & F1).
  { cbn [map]. constructor; [apply (po_new _ _ _ _ Ppa)|]. apply f2_repeat; [|rewrite map_length; congruence].
    clear -Pps. induction Pps; cbn [map]; constructor; auto. eapply po_new; eauto. }
  pose proof (g_inp _ _ _ _ _ _ _ G1) as Ei1. cbn [map] in Ei1. injection Ei1 as <- <-.
  pose proof (g_len _ _ _ _ _ _ _ G0) as Ln0. pose proof (g_len _ _ _ _ _ _ _ G1) as Ln1.
  destruct ps as [|p0 ps'] eqn:Eps; [exfalso; apply (g_ne _ _ _ _ _ _ _ G1); reflexivity|]. rewrite <- Eps in *.
  assert (Lp0 : length (pview p0) = n1) by (rewrite Eps in Ln1; cbn [map] in Ln1; apply Forall_inv in Ln1; exact Ln1).
  unfold adv_prop. rewrite Cf. unfold chk at 1. cbn [negb]. rewrite andb_false_r.
  assert (E0 : rget ps 0 = Ok p0) by (rewrite Eps; reflexivity). rewrite E0. cbn [rbind]. rewrite Lp0.
  assert (Lo : length (a_off d0) = n0) by (rewrite Coff; apply seq_map_len).
  destruct (idx_all_ok strict dbg A konst (a_off d0) n1 d0 (ad_spec A) 0 (ad_istr A) arrs0 ps d0) as (d1 & -> & I1 & E1).
  - rewrite (ok_first _ OK). reflexivity.
  - apply (ok_lead _ OK).
  - rewrite (ok_istr _ OK), wt_len. symmetry. apply (ok_len _ OK).
  - rewrite Lps, (g_num _ _ _ _ _ _ _ G0). apply pick_len. rewrite (ok_istr _ OK), wt_len. unfold shape_now. destruct (ad_shape A); reflexivity.
  - rewrite Lo. clear -Pps Ln0 Ln1 Mw SAFE1. induction Pps as [|l p ls ps H Hs IH]; [constructor|].
    destruct (Forall_inv Ln0). apply Forall_inv_tail in Ln0. cbn [map] in Ln1. pose proof (Forall_inv Ln1) as L1. apply Forall_inv_tail in Ln1. pose proof (Forall_inv Mw) as W. apply Forall_inv_tail in Mw.
    constructor; [|apply IH; auto]. split; [apply (po_replay _ _ _ _ H)|]. split; [reflexivity|]. split; [exact L1|]. split; [exact W|].
    unfold calm. destruct strict; [right; apply (po_fixed _ _ _ _ H); auto|now left].
  - constructor; try (rewrite Co); [repeat split|apply rp_nil|exact Crev|constructor|lia|constructor].
  - reflexivity.
  - intros j Hj. rewrite Coff. rewrite nth_error_map, nth_error_seq. destruct (Nat.ltb_spec j n0); [reflexivity|lia].
  - cbn [rbind]. fold (strs A) in E1.
    destruct (dedup_total (a_off d0) (a_odif d1) (a_off d1) (oi_replay _ _ _ _ _ I1)) as [us Eus].
    { rewrite E1, seq_map_len. apply (oi_idx _ _ _ _ _ I1). }
    rewrite Eus. destruct (C03_dedup_net_effect Z.eqb zspec _ _ (oi_replay _ _ _ _ _ I1) Eus) as (U1 & U2 & U3).
    destruct (oi_same _ _ _ _ _ I1) as (S1 & S2 & S3 & S4). pose proof (oi_rev _ _ _ _ _ I1) as Rv. rewrite E1 in U2, U3, Rv.
    set (d2 := GData (a_dat d1) (a_dif d1) us (a_osz d1) (a_dsz d1) (a_off d1) (a_rev d1)).
    assert (R : exists d3, (if ad_b1 A then b1_prop strict dbg A konst pa us d2 else b2_prop strict dbg A konst pa us d2) = Ok d3 /\
                  DI v0 (Nat.max (length v0) (length v1)) (dynamic (ad_oshape A) = false) d2 d3 /\ a_dat d3 = map Some v1).
    { destruct (ad_b1 A) eqn:B.
      - apply (mode1 strict dbg A OK konst SUP WF m B _ v0 a0 arrs0 n0 _ v1 (pview pa) (map (@pview num) ps) n1 G0 G1 N0 N1 F0 F1 SAFE1 d2 pa); auto.
        + apply (po_replay _ _ _ _ Ppa).
        + apply (po_fixed _ _ _ _ Ppa).
        + now rewrite <- Coff.
        + now rewrite <- Coff.
        + cbn. congruence.
        + cbn. congruence.
      - assert (En : n1 = n0).
        { pose proof (ok_fix _ OK B) as Hf. unfold nfit, fits_len in N0, N1. rewrite Hf in N0, N1. lia. }
        rewrite En in *.
        destruct (b2_sls A OK WF 0 B) as (d & t & s & H1 & H2 & _).
        apply (mode2 strict dbg A OK konst SUP WF m B d t s H1 H2 _ v0 a0 arrs0 _ v1 (pview pa) (map (@pview num) ps) n0 G0 G1 N0 F0 F1) with (d2 := d2); auto.
        + apply (po_replay _ _ _ _ Ppa).
        + apply (po_sdiff _ _ _ _ Ppa).
        + now rewrite <- Coff.
        + now rewrite <- Coff.
        + cbn. congruence.
        + cbn. congruence. }
    destruct R as (d3 & E3 & I3 & D3). destruct (di_same _ _ _ _ _ I3) as (T1 & T2 & T3 & T4 & T5). cbn in T1, T2, T3, T4, T5.
    exists d3, (pview pa), (map (@pview num) ps), n1, us. split; [destruct (ad_b1 A); exact E3|].
    split; [exact G1|]. split; [exact N1|]. split; [exact F1|]. split.
    { destruct I3 as [_ J2 J3 J4]. constructor; auto. repeat split. }
    split; [exact D3|]. split; [exact T1|]. split; [congruence|]. split; [congruence|]. split; [congruence|]. rewrite T4, T5, E1.
    split; [exact Rv|]. split; [exact U1|]. split; [exact U2|]. exact U3.
Qed.

Lemma revert_ok inp0 v0 d0 a0 arrs0 n0 d3 v1 (arrs1 : list (list num)) n1 us : Cl A konst m inp0 v0 d0 a0 arrs0 n0 -> nfit A n1 ->
  DI v0 (Nat.max (length v0) (length v1)) (dynamic (ad_oshape A) = false) d3 d3 -> a_dat d3 = map Some v1 ->
  a_odif d3 = us -> a_osz d3 = n0 -> a_dsz d3 = length v0 -> a_off d3 = map (contrib (strs A) arrs1) (seq 0 n1) ->
  RevI konst (a_rev d3) (nth_error (a_off d3)) ->
  StronglySorted lt (map (@uidx Z) us) ->
  (forall u, In u us -> uold u = nth_error (a_off d0) (uidx u) /\ uval u = nth_error (a_off d3) (uidx u) /\ ~ (uold u = None /\ uval u = None)) ->
  (forall i, nth_error (a_off d0) i <> nth_error (a_off d3) i -> In i (map (@uidx Z) us)) ->
  exists d4, adv_revert strict konst d3 = Ok d4 /\ Cl A konst m inp0 v0 d4 a0 arrs0 n0.
Proof.
  intros C N1 I D3 Eo Es Ez Eoff Rv U1 U2 U3. destruct C as [G0 N0 F0 Cd Cf Co Cs Cz Coff Crev].
  assert (Lo : length (a_off d0) = n0) by (rewrite Coff; apply seq_map_len).
  assert (L3 : length (a_off d3) = n1) by (rewrite Eoff; apply seq_map_len).
  assert (Ld : length (a_dat d3) = length v1) by (rewrite D3; apply map_length).
  unfold adv_revert. rewrite Es, Ez. fold (grown n0 0 (a_off d3)). fold (grown (length v0) (Some 0%Qc) (a_dat d3)).
  set (bo := grown n0 0 (a_off d3)). set (bd := grown (length v0) (Some 0%Qc) (a_dat d3)).
  assert (Lbo : length bo = Nat.max n0 n1) by (unfold bo; rewrite grown_len, L3; reflexivity).
  assert (Lbd : length bd = Nat.max (length v0) (length v1)) by (unfold bd; rewrite grown_len, Ld; reflexivity).
  destruct (undo_off_ok strict konst (a_off d0) (a_off d3) (rev us) bo (a_rev d3) (nth_error (a_off d3))) as (bo' & r' & E1 & L1 & K1 & W1 & R1).
  - rewrite map_rev. apply NoDup_rev. apply sorted_nodup. exact U1.
  - apply Forall_forall. intros u Hu. apply in_rev in Hu. destruct (U2 u Hu) as (H1 & H2 & H3). split; [|auto].
    destruct (Nat.lt_ge_cases (uidx u) (length bo)) as [|Hge]; [assumption|]. exfalso. apply H3. rewrite H1, H2. split; apply nth_error_None; lia.
  - assert (Hst : strict = true \/ strict = false) by (destruct strict; auto). destruct Hst as [Hst|Hst]; [right|now left].
    specialize (SAFE1 Hst). unfold nfit, fits_len in N0, N1. rewrite SAFE1 in N0, N1. assert (n0 = n1) by lia.
    apply Forall_forall. intros u Hu. apply in_rev in Hu. destruct (U2 u Hu) as (H1 & H2 & H3). rewrite H1, H2 in H3. unfold is_change. rewrite H1, H2.
    destruct (Nat.lt_ge_cases (uidx u) n0); [split; apply nth_error_Some; lia|]. exfalso. apply H3. split; apply nth_error_None; lia.
  - exact Rv.
  - intros u Hu. apply in_rev in Hu. destruct (U2 u Hu) as (H1 & H2 & H3). auto.
  - rewrite Eo. rewrite E1. cbn [rbind fst snd].
    destruct (undo_dat_ok v0 (a_dif d3) v1 bd) as (bd' & E2 & L2 & K2).
    + rewrite (di_track _ _ _ _ _ I), D3, map_map. cbn [dfl]. now rewrite map_id.
    + lia.
    + rewrite <- D3, <- Ld. apply grown_first.
    + rewrite Lbd. apply (di_idx _ _ _ _ _ I).
    + rewrite E2. cbn [rbind]. eexists. split; [reflexivity|].
      rewrite !cut_grown by lia.
      assert (Eoff' : firstn n0 bo' = a_off d0).
      { apply nth_error_ext. intros j. rewrite nth_error_firstn. destruct (Nat.ltb_spec j n0) as [Hj|Hj].
        - destruct (in_dec Nat.eq_dec j (map (@uidx Z) us)) as [Hi|Hi].
          + apply in_map_iff in Hi. destruct Hi as (u & <- & Hu). destruct (U2 u Hu) as (H1 & _). destruct (uold u) as [o|] eqn:Eu.
            * rewrite <- H1. apply (W1 u o); [apply in_rev in Hu|]; auto.
            * symmetry in H1. apply nth_error_None in H1. lia.
          + rewrite K1 by (rewrite map_rev, <- in_rev; exact Hi). assert (E : nth_error (a_off d0) j = nth_error (a_off d3) j).
            { destruct (nth_error (a_off d0) j) as [x|] eqn:Ex, (nth_error (a_off d3) j) as [y|] eqn:Ey; auto.
              - destruct (Z.eq_dec x y) as [->|Hne]; [reflexivity|]. exfalso. apply Hi. apply U3. congruence.
              - exfalso. apply Hi. apply U3. congruence.
              - exfalso. apply Hi. apply U3. congruence. }
            rewrite E. assert (Hj3 : (j < length (a_off d3))%nat) by (apply nth_error_Some; rewrite <- E; apply nth_error_Some; lia).
            rewrite <- (grown_first n0 0 (a_off d3)) at 1. fold bo. rewrite nth_error_firstn. destruct (Nat.ltb_spec j (length (a_off d3))); [reflexivity|lia].
        - symmetry. apply nth_error_None. lia. }
      constructor; cbn [a_dat a_dif a_odif a_osz a_dsz a_off a_rev]; auto.
      * rewrite Eoff'. exact Coff.
      * rewrite Eoff'. eapply RevI_ext; [|exact R1]. intros j. cbv beta.
        destruct (existsb (Nat.eqb j) (map (@uidx Z) (rev us))) eqn:Ex; [reflexivity|].
        assert (Hi : ~ In j (map (@uidx Z) us)).
        { intros Hc. rewrite map_rev in Ex. assert (existsb (Nat.eqb j) (rev (map (@uidx Z) us)) = true); [|congruence].
          apply existsb_exists. exists j. rewrite <- in_rev. split; [exact Hc|apply Nat.eqb_refl]. }
        destruct (nth_error (a_off d0) j) as [x|] eqn:Ex', (nth_error (a_off d3) j) as [y|] eqn:Ey; auto.
        -- destruct (Z.eq_dec x y) as [->|Hne]; [reflexivity|]. exfalso. apply Hi. apply U3. congruence.
        -- exfalso. apply Hi. apply U3. congruence.
        -- exfalso. apply Hi. apply U3. congruence.
Qed.

Theorem adv_node_ok : node_ok_if qeqb (adv_moves konst (ad_shape A) m (ad_spec A)) N F.
Proof.
  constructor. exists (fun ins s => exists v a arrs n, F ins = Some v /\ Cl A konst m ins v s a arrs n). split; [|split].
  - intros ins v Hf Ev. destruct (F_good A OK konst SUP WF m ins v Ev Hf) as (a & arrs & n & G & Nf & Fa). split; [eapply out_fits; eauto|].
    destruct (init_ok strict dbg A OK konst SUP WF m ins v a arrs n G Nf Fa) as (d & E & C). exists d. split; [exact E|]. exists v, a, arrs, n. auto.
  - intros ins s (v & a & arrs & n & Ev & C). exists v. split; [exact Ev|]. unfold adv_node. cbn [nd_out]. unfold adv_out.
    rewrite (cl_dat _ _ _ _ _ _ _ _ _ C), all_some_map, map_length, (cl_dif _ _ _ _ _ _ _ _ _ C), (cl_dsz _ _ _ _ _ _ _ _ _ C), Z.sub_diag.
    unfold still. now destruct (dynamic (ad_oshape A)).
  - intros ins s v pins v' (v0 & a & arrs & n & Ev0 & C) Ev Hp Lp Mv Ev'. rewrite Ev in Ev0. injection Ev0 as <-.
    destruct (step_ok ins v s a arrs n pins v' C Hp Lp Mv Ev') as (d3 & a1 & arrs1 & n1 & us & E3 & G1 & N1 & F1 & I & D3 & Eo & Es & Ez & Eoff & Rv & U1 & U2 & U3).
    exists d3. split; [exact E3|]. pose proof (out_fits _ _ _ _ _ G1 N1 F1) as Fo1.
    pose proof (out_fits _ _ _ _ _ (cl_good _ _ _ _ _ _ _ _ _ C) (cl_nfit _ _ _ _ _ _ _ _ _ C) (cl_fits _ _ _ _ _ _ _ _ _ C)) as Fo0.
    split; [|split].
    + unfold adv_node. cbn [nd_out nd_shape]. unfold adv_out. rewrite D3, all_some_map. eexists. split; [reflexivity|]. split; [reflexivity|]. constructor; cbn [pview pdiff psdiff].
      * exact Fo0.
      * exact Fo1.
      * rewrite (di_track _ _ _ _ _ I), D3, map_map. cbn [dfl]. now rewrite map_id.
      * rewrite map_length, Ez. destruct (dynamic (ad_oshape A)) eqn:Dy; [reflexivity|]. unfold fits, fits_len in Fo0, Fo1. rewrite Dy in Fo0, Fo1. lia.
      * apply (di_fix _ _ _ _ _ I).
    + exists v', a1, arrs1, n1. split; [exact Ev'|]. unfold adv_node. cbn [nd_commit]. unfold adv_commit.
      constructor; cbn [a_dat a_dif a_odif a_osz a_dsz a_off a_rev]; auto.
      * rewrite Eoff. apply seq_map_len.
      * rewrite D3. apply map_length.
    + destruct (revert_ok ins v s a arrs n d3 v' arrs1 n1 us C N1 I D3 Eo Es Ez Eoff Rv U1 U2 U3) as (d4 & E4 & C4). exists d4. split; [exact E4|]. exists v, a, arrs, n. auto.
Qed.
End Wrap.
