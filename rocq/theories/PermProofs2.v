From Verif Require Import Base SliceModel ShapeModel ShapeSpec ShapeProofs StateDataModel StateDataSpec Replay NodeSpec NodeLib BinaryModel Num QuadModel BinaryProofs NodeShape PermModel PermSpec PermProofs.

Notation zqs l := (map (fun z => zq (Z.of_nat z)) l).

Lemma nidx2 n m : 0 < n -> m < n * n -> nth_error (nidx n 2) m = Some [m / n; m mod n].
Proof.
  intros Hn H. assert (V : valid n 2 [m / n; m mod n]).
  { split; [reflexivity|]. constructor; [apply Nat.div_lt_upper_bound; lia|]. constructor; [apply Nat.mod_upper_bound; lia|constructor]. }
  pose proof (nidx_nth n 2 _ V) as E. cbn [nrank length Nat.pow] in E.
  rewrite <- E. f_equal. pose proof (Nat.div_mod m n ltac:(lia)). nia.
Qed.
Lemma poffs2 n zs : 0 < n -> poffs n 2 zs = rc n zs zs.
Proof.
  intros Hn. apply nth_error_ext. intros m. unfold poffs. rewrite nth_error_map. destruct (Nat.ltb_spec m (n * n)) as [H|H].
  - rewrite nidx2 by auto. unfold rc. rewrite offs_get by auto. cbn [option_map map nrank length Nat.pow]. f_equal. lia.
  - rewrite (proj2 (nth_error_None (nidx n 2) m)) by (rewrite nidx_length; cbn; lia). symmetry. apply nth_error_None.
    unfold rc, offs. rewrite map_length, seq_length. lia.
Qed.
Lemma pvals_poffs n k a zs : pvals n k a zs = map (fun z => nth (Z.to_nat z) a 0%Qc) (poffs n k zs).
Proof. unfold pvals, poffs. rewrite map_map. apply map_ext. intros i. now rewrite Nat2Z.id. Qed.
Lemma rc_length n R C : length (rc n R C) = n * n.
Proof. unfold rc, offs. now rewrite map_length, seq_length. Qed.
Lemma zqs_inj l1 : forall l2, zqs l1 = zqs l2 -> l1 = l2.
Proof.
  induction l1 as [|z l1 IH]; intros [|y l2] E; try discriminate; auto. cbn [map] in E.
  assert (E1 : zq (Z.of_nat z) = zq (Z.of_nat y)) by congruence. apply zq_inj in E1. f_equal; [lia|]. apply IH. congruence.
Qed.

Theorem perm_ok n : 0 < n -> (8 * Z.of_nat (n ^ 2) < 2147483648)%Z -> node_ok_if qeqb (perm_moves n) (perm_node n 2) (perm_fun n 2).
Proof.
  intros Hn B. assert (P2 : n ^ 2 = n * n) by (cbn; lia).
  assert (FF : forall ins v, perm_fun n 2 ins = Some v -> exists a zs, ins = [a; zqs zs] /\ length zs = n /\ Forall (fun z => z < n) zs /\
     length a = n * n /\ v = pvals n 2 a zs).
  { intros ins v H. assert (E : exists a o, ins = [a; o]).
    { destruct ins as [|a [|o [|]]]; try discriminate H. eauto. }
    destruct E as (a & o & ->). destruct (perm_fun_form _ _ _ _ _ H) as (zs & -> & F & L & La & ->). exists a, zs. rewrite P2 in La. auto 6. }
  constructor.
  exists (fun ins (d : idata) => exists a zs, ins = [a; zqs zs] /\ length zs = n /\ Forall (fun z => z < n) zs /\ length a = n * n /\
     d = i_new (poffs n 2 zs) (pvals n 2 a zs)).
  cbn [perm_node nd_shape nd_pre nd_ST nd_init nd_out nd_prop nd_commit nd_revert]. split; [|split].
  - intros ins v Hf HF. destruct (FF _ _ HF) as (a & zs & -> & L & F & La & ->). split.
    + unfold fits, fits_len. replace (dynamic (repeat (Z.of_nat n) 2)) with false by (cbn; destruct (Z.ltb_spec (Z.of_nat n) 0); [lia|reflexivity]).
      rewrite pvals_poffs, map_length, poffs2, rc_length by auto. cbn [repeat prod]. lia.
    + eexists. split; [cbn [map]; apply perm_init_ok; auto; lia|]. exists a, zs. auto 6.
  - intros ins d (a & zs & -> & L & F & La & ->). exists (pvals n 2 a zs). split; [apply perm_fun_val; auto; lia|]. reflexivity.
  - intros ins d v pins v' (a & zs & -> & L & F & La & ->) HF HP _ HM HF'.
    rewrite perm_fun_val in HF by (auto; lia). injection HF as <-.
    destruct pins as [|pa [|po [|]]]; try contradiction HM. destruct HM as [Da FB].
    cbn [combine] in HP. inversion HP as [|? ? ? ? Ka HP1]; subst. inversion HP1 as [|? ? ? ? Ko _]; subst. cbn [fst snd] in Ka, Ko.
    pose proof (po_replay _ _ _ _ Ka) as Ra. rewrite Da, rp_nil in Ra.
    assert (Ea : pview pa = a) by congruence. clear Ra.
    pose proof (po_replay _ _ _ _ Ko) as Ro.
    assert (FC : Forall is_change (pdiff po)).
    { apply (po_fixed _ _ _ _ Ko). cbn. destruct (Z.ltb_spec (Z.of_nat (length zs)) 0); [lia|reflexivity]. }
    set (n := length zs) in *.
    destruct (FF _ _ HF') as (a1 & zs' & Ei & L' & F' & _ & ->). cbn [map] in Ei. rewrite Ea in Ei. injection Ei as <- Ev.
    set (d0 := i_new (poffs n 2 zs) (pvals n 2 a zs)).
    assert (I0 : pinv n a (poffs n 2 zs) (pvals n 2 a zs) d0).
    { constructor; cbn [d0 i_new i_off i_dat i_diff i_old i_size].
      - rewrite poffs2, rc_length by auto. reflexivity.
      - apply pvals_poffs.
      - apply rp_nil.
      - constructor.
      - reflexivity.
      - rewrite poffs2, rc_length by auto. reflexivity. }
    assert (G : exists d', perm_prop n 2 d0 [pa; po] = Ok d' /\ pinv n a (poffs n 2 zs) (pvals n 2 a zs) d' /\ i_off d' = poffs n 2 zs').
    { unfold perm_prop. change (i_diff d0) with (@nil (update Qc)). rewrite Da, Ea.
      destruct (pdiff po) as [|u us] eqn:Ed.
      - exists d0. split; [reflexivity|]. split; [exact I0|]. rewrite rp_nil in Ro.
        assert (zs = zs') by (apply zqs_inj; congruence). subst zs'. reflexivity.
      - rewrite <- Ed in *. clear Ed u us. cbn [repeat]. rewrite !strides_cons. cbn [shape_to_strides prod perm_axes Nat.pow Nat.sub].
        replace (Z.quot (8 * (Z.of_nat n * 1)) 8) with (Z.of_nat n) by (rewrite Z.mul_1_r, Z.mul_comm, Z.quot_mul; lia).
        change (Z.quot (8 * 1) 8) with 1%Z. rewrite Nat.mul_1_r, Nat.mul_1_l, (Nat.div_same n) by lia.
        destruct (updates_ok n a (poffs n 2 zs) (pvals n 2 a zs) (perm_update n a (Z.of_nat n) n 1) (fun R => rc n R zs) (pdiff po))
          with (d := d0) (L := zs) (l' := pview po) as (d1 & R1 & E1 & I1 & O1 & K1 & V1); auto.
        { intros. eapply row_update; eauto. rewrite poffs2, rc_length; auto. rewrite pvals_poffs, map_length, poffs2, rc_length; auto. }
        { cbn [d0 i_new i_off]. now apply poffs2. }
        rewrite E1. cbn [rbind].
        destruct (updates_ok n a (poffs n 2 zs) (pvals n 2 a zs) (perm_update n a 1 1 n) (fun C => rc n R1 C) (pdiff po))
          with (d := d1) (L := zs) (l' := pview po) as (d2 & R2 & E2 & I2 & O2 & K2 & V2); auto.
        { intros. eapply col_update; eauto. rewrite poffs2, rc_length; auto. rewrite pvals_poffs, map_length, poffs2, rc_length; auto. }
        rewrite E2. cbn [rbind]. exists d2. split; [reflexivity|]. split; [exact I2|].
        assert (R1 = zs') by (apply zqs_inj; congruence). assert (R2 = zs') by (apply zqs_inj; congruence). subst R1 R2.
        rewrite O2. symmetry. now apply poffs2. }
    destruct G as (d' & Ep & [Lo Id Ir Ic Iu Is] & Oo). rewrite Oo in *. rewrite <- pvals_poffs in Id.
    assert (La' : length (poffs n 2 zs) = n * n) by (rewrite poffs2, rc_length; auto).
    exists d'. split; [exact Ep|]. split; [|split].
    + eexists. split; [reflexivity|]. cbn [pview]. split; [exact Id|].
      assert (NS : dynamic (repeat (Z.of_nat n) 2) = false) by (cbn; destruct (Z.ltb_spec (Z.of_nat n) 0); [lia|reflexivity]).
      constructor; cbn [pview pdiff psdiff].
      * unfold fits, fits_len. rewrite NS, pvals_poffs, map_length, La'. cbn [repeat prod]. lia.
      * unfold fits, fits_len. rewrite NS, Id, pvals_poffs, map_length, Lo. cbn [repeat prod]. lia.
      * exact Ir.
      * rewrite Id, !pvals_poffs, !map_length, Lo, La'. lia.
      * auto.
    + exists a, zs'. cbn [map]. rewrite Ea, Ev. repeat split; auto. unfold i_commit, i_new. now rewrite Oo, Id.
    + unfold i_revert. rewrite Oo, Is, Lo, Nat.ltb_irrefl. rewrite Iu. cbn [rbind fst snd]. rewrite La', Nat.ltb_irrefl.
      eexists. split; [reflexivity|]. exists a, zs. repeat split; auto. unfold i_new. now rewrite La'.
Qed.
