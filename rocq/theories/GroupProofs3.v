(** Disjoint bit-sets as decisions of whole models. *)
From Coq Require Import Relations Permutation.
From Verif Require Import Base Num SliceModel StateDataModel StateDataSpec StateDataProofs Replay NodeSpec NodeLib NumbersModel NumbersSpec NumbersProofs
  CollectionsModel CollectionsSpec CollectionsProofs DisjointModel DisjointSpec DisjointProofs ViewModel ProposeModel ProposeSpec ProposeProofs3 GroupModel GroupSpec GroupProofs GroupProofs2.
Local Open Scope nat_scope.

Section BitsMain.
Variables n k : nat.
Hypothesis Hk : 0 < k.
Notation D := (whole 0 1).
Notation tD := (fun u : update num => forall x, uold u = Some x \/ uval u = Some x -> D x).
Lemma ind_D w s : D (ind w s).
Proof. unfold ind. destruct (w =? s); [exists 1%Z|exists 0%Z]; split; auto; lia. Qed.
Lemma indicator_D w s : Forall D (indicator w s).
Proof. apply Forall_map, Forall_forall. intros x _. apply ind_D. Qed.
Definition rows_of (w : list nat) : list (list num) := map (indicator w) (seq 0 k).
Lemma rows_nth w s r : nth_error (rows_of w) s = Some r <-> s < k /\ r = indicator w s.
Proof.
  unfold rows_of. rewrite nth_error_map, nth_error_seq. destruct (Nat.ltb_spec s k); cbn [option_map Nat.add]; split; intros E.
  - split; congruence.
  - destruct E as [_ ->]. reflexivity.
  - discriminate.
  - lia.
Qed.
Definition BI (c : list nat) (d : bsdata) : Prop := exists w, BInv n k c w d /\ Forall (Forall tD) (bsdiffs d).
Lemma BInv_rows c w d : BInv n k c w d -> bs_rows d = rows_of w.
Proof.
  intros (H1 & H2 & _ & _ & _ & _ & _ & _ & H9). unfold bs_rows, rows_of. rewrite H2. apply map_ext_in. intros s Hs. apply in_seq in Hs. unfold bs_view. rewrite H1. apply H9. lia.
Qed.
Lemma BI_step c d d' : BI c d -> bits_move n d d' -> BI c d'.
Proof.
  intros (w & HI & HT) (f & t & e & He & E). pose proof HI as (H1 & H2 & H3 & H4 & H5 & H6 & H7 & H8 & H9).
  assert (Q : d' = d \/ (f < k /\ t < k /\ Forall (Forall tD) (bsdiffs d'))).
  { unfold bs_swap in E. rewrite H1 in E. destruct (nth_error (bsdat d) (f * n + e)) as [x0|] eqn:E0; [|discriminate]. destruct (nth_error (bsdat d) (t * n + e)) as [x1|] eqn:E1; [|discriminate].
    destruct (qeqb x0 x1); [left; congruence|]. destruct (nth_error (bsdiffs d) f) as [df|] eqn:Ef; [|discriminate]. destruct (nth_error (lset f (df ++ [change e x0 x1]) (bsdiffs d)) t) as [dt|] eqn:Et; [|discriminate].
    right. apply nth_error_lt in Ef as Lf. apply nth_error_lt in Et as Lt. rewrite lset_length in Lt. split; [lia|]. split; [lia|]. injection E as <-. cbn [bsdiffs].
    assert (Dr : forall s x, s < k -> nth_error (bsdat d) (s * n + e) = Some x -> D x).
    { intros s x Hs Hx. destruct (nth_error w e) as [o|] eqn:Eo; [|apply nth_error_None in Eo; lia]. rewrite (BInv_nth n k c w d s e o HI Hs Eo) in Hx. injection Hx as <-. apply ind_D. }
    assert (D0 : D x0) by (apply (Dr f); auto; lia). assert (D1 : D x1) by (apply (Dr t); auto; lia).
    assert (HT1 : Forall (Forall tD) (lset f (df ++ [change e x0 x1]) (bsdiffs d))).
    { apply Forall_lset; auto. apply Forall_app. split; [rewrite Forall_forall in HT; apply HT; eapply nth_error_In; eauto|]. constructor; [|constructor]. now apply t_change. }
    apply Forall_lset; auto. apply Forall_app. split; [rewrite Forall_forall in HT1; apply HT1; eapply nth_error_In; eauto|]. constructor; [|constructor]. now apply t_change. }
  destruct Q as [->|(Lf & Lt & HT')]; [exists w; auto|].
  destruct (nth_error w e) as [x|] eqn:Ex; [|apply nth_error_None in Ex; lia].
  destruct (bs_swap_spec n k c w d f t e (c, lset e (if x =? f then t else if x =? t then f else x) w) HI) as (d1 & E1 & A).
  { cbn [bspec_op]. rewrite Ex. rewrite (proj2 (Nat.ltb_lt f k)), (proj2 (Nat.ltb_lt t k)) by auto. reflexivity. }
  assert (d1 = d') by congruence. subst d1. cbn [fst snd] in A. eexists. eauto.
Qed.
Lemma bs_revert_rows c w d : BInv n k c w d -> exists d0, bs_revert d = Some d0 /\ BInv n k c c d0 /\ Forall (fun us => us = []) (bsdiffs d0) /\ bs_rows d0 = rows_of c.
Proof.
  intros H. destruct (bs_revert_spec n k c w d H) as (d0 & E & A). exists d0. split; [exact E|]. split; [exact A|]. split; [|eapply BInv_rows; eauto].
  unfold bs_revert in E. destruct (ofold _ _ _) as [l|]; [|discriminate]. injection E as <-. cbn [bsdiffs]. apply Forall_map, Forall_forall. auto.
Qed.
Lemma bits_out c w d : BInv n k c w d -> vn_out (bits_vnode n k) d [] = Some (group_pin (rows_of c) (rows_of w) (repeat n k) (bsdiffs d)).
Proof.
  intros H. cbn [vn_out bits_vnode]. destruct (bs_revert_rows c w d H) as (d0 & -> & _ & _ & ->). rewrite (BInv_rows c w d H). destruct H as (-> & -> & _). reflexivity.
Qed.
Lemma rows_good c w d : BInv n k c w d -> bits_partition n k (rows_of c) /\ bits_partition n k (rows_of w).
Proof. intros (_ & _ & _ & _ & H5 & H6 & H7 & H8 & _). split; [exists c|exists w]; auto. Qed.
Lemma BI_group c w d : BInv n k c w d -> Forall (Forall tD) (bsdiffs d) -> group_ok (bits_partition n k) D true (group_pin (rows_of c) (rows_of w) (repeat n k) (bsdiffs d)).
Proof.
  intros H HT. exists (rows_of c), (rows_of w), (repeat n k), (bsdiffs d). split; [reflexivity|]. destruct (rows_good c w d H) as [G1 G2]. split; [exact G1|]. split; [exact G2|].
  destruct H as (H1 & H2 & H3 & H4 & H5 & H6 & H7 & H8 & H9). unfold rows_of at 1 2 3 4. rewrite !map_length, !seq_length, repeat_length. split; [auto|]. split; [auto|]. split; [auto|].
  intros i o v us q Ho Hv Hu Hq. apply rows_nth in Ho. apply rows_nth in Hv. destruct Ho as [Hi ->], Hv as [_ ->]. destruct (H9 i Hi) as (_ & us' & Eu & Hc & R). assert (us' = us) by congruence. subst us'.
  split; [exact R|]. split. { rewrite indicator_length. rewrite nth_error_repeat in Hq. rewrite (proj2 (Nat.ltb_lt _ _)) in Hq by auto. congruence. }
  split; [intros _; eapply Forall_impl; [|exact Hc]; cbv beta; intros u (a & b & Ha & Hb); split; congruence|]. split; [apply indicator_D|]. split; [apply indicator_D|]. rewrite Forall_forall in HT. apply HT. eapply nth_error_In; eauto.
Qed.
Lemma rows_length c : length c = n -> map (@length num) (rows_of c) = repeat n k.
Proof.
  intros H. unfold rows_of. rewrite map_map. clear Hk. generalize 0 as a. induction k as [|m IH]; intros a; [reflexivity|]. cbn [seq map repeat]. rewrite indicator_length, H. f_equal. apply IH.
Qed.
Lemma bits_quiet c w d : BInv n k c w d -> quiet (rows_of w) (repeat n k) (bsdiffs d) = true -> rows_of c = rows_of w.
Proof.
  intros (H1 & H2 & H3 & H4 & H5 & H6 & H7 & H8 & H9) Q. apply quiet_true in Q. destruct Q as [Q _]. unfold rows_of. apply map_ext_in. intros s Hs. apply in_seq in Hs.
  destruct (H9 s ltac:(lia)) as (_ & us & Eu & _ & R). rewrite Forall_forall in Q. rewrite (Q us (nth_error_In _ _ Eu)) in R. unfold replay in R. cbn in R. congruence.
Qed.
Lemma quiet_T (logs : list (list (update num))) : Forall (fun us => us = []) logs -> Forall (Forall tD) logs.
Proof. intros H. eapply Forall_impl; [|exact H]. cbv beta. intros us ->. constructor. Qed.
Lemma bits_decides : decides qeqb (bits_vnode n k) (group_ok (bits_partition n k) D true) (bits_start n k) (bits_move n).
Proof.
  exists (fun v d => exists c, v = wire (rows_of c) /\ BInv n k c c d /\ Forall (fun us => us = []) (bsdiffs d)). unfold dcontract. split; [|split].
  - intros d [E|(rows & P & E)].
    + destruct (bs_init_default_spec n k Hk) as (d1 & E1 & A). assert (d1 = d) by congruence. subst d1. exists (wire (rows_of (repeat 0 n))), (repeat 0 n). split; [reflexivity|]. split; [exact A|].
      unfold bs_init_default in E. destruct (ofold _ _ _) as [l|]; [|discriminate]. injection E as <-. cbn [bsdiffs]. apply Forall_forall. intros us Hu. exact (repeat_spec _ _ _ Hu).
    + destruct (bs_init_ok n k rows P) as (d1 & w & E1 & A & _). assert (d1 = d) by congruence. subst d1. exists (wire (rows_of w)), w. split; [reflexivity|]. split; [exact A|].
      unfold bs_init in E. repeat match type of E with (if ?b then _ else _) = _ => destruct b; [discriminate|] end. injection E as <-. cbn [bsdiffs]. apply Forall_forall. intros us Hu. exact (repeat_spec _ _ _ Hu).
  - intros v d (c & -> & HB & HQ). split; [unfold fits, fits_len; cbn [vn_shape bits_vnode dynamic]; exists (Z.of_nat (length (wire (rows_of c)))); cbn; lia|].
    assert (Eq : group_pin (rows_of c) (rows_of c) (repeat n k) (bsdiffs d) = still (wire (rows_of c))).
    { unfold group_pin. replace (quiet (rows_of c) (repeat n k) (bsdiffs d)) with true; [reflexivity|]. symmetry. apply quiet_true. split; [exact HQ|]. symmetry. apply rows_length. apply HB. }
    rewrite <- Eq. split; [apply BI_group; auto; now apply quiet_T|]. apply bits_out. exact HB.
  - intros v d d' (c & -> & HB & HQ) R. assert (I : BI c d').
    { apply clos_rt_rtn1 in R. induction R as [|y z St _ IH]; [exists c; split; [exact HB|now apply quiet_T]|eapply BI_step; eauto]. }
    destruct I as (w & HI & HT). split; [reflexivity|]. split.
    + eexists. split; [apply bits_out; exact HI|]. split; [apply group_pin_fits; eapply bits_quiet; eauto|]. split; [now apply BI_group|].
      eexists. split; [reflexivity|]. rewrite group_pin_view. exists w. split; [reflexivity|]. split; [eapply bs_commit_spec; eauto|]. cbn [bs_commit bsdiffs]. apply Forall_map, Forall_forall. auto.
    + cbn [vn_revert bits_vnode]. destruct (bs_revert_rows c w d' HI) as (d0 & -> & A & B & _). cbn [of_opt]. exists d0. split; [reflexivity|]. exists c. auto.
Qed.
End BitsMain.
