(** Disjoint lists and bit-sets as decisions of whole models. *)
From Coq Require Import Relations Permutation.
From Verif Require Import Base Num SliceModel StateDataModel StateDataSpec StateDataProofs Replay NodeSpec NodeLib NumbersModel NumbersSpec NumbersProofs
  CollectionsModel CollectionsSpec CollectionsProofs DisjointModel DisjointSpec DisjointProofs ViewModel ProposeModel ProposeSpec ProposeProofs3 GroupModel GroupSpec GroupProofs.
Local Open Scope nat_scope.

Lemma F2_len {A B} (P : A -> B -> Prop) l m : Forall2 P l m -> length l = length m.
Proof. induction 1; cbn; congruence. Qed.

(** ** Values in the logs *)
Section Logs.
Variable D : num -> Prop.
Notation tD := (fun u : update num => forall x, uold u = Some x \/ uval u = Some x -> D x).
Lemma t_change i x y : D x -> D y -> tD (change i x y).
Proof. intros Hx Hy z [H|H]; cbn in H; injection H as <-; auto. Qed.
Lemma t_removal i x : D x -> tD (removal i x).
Proof. intros Hx z [H|H]; cbn in H; [injection H as <-; auto|discriminate]. Qed.
Lemma t_placement i x : D x -> tD (placement i x).
Proof. intros Hx z [H|H]; cbn in H; [discriminate|injection H as <-; auto]. Qed.
Definition LD (x : @adata num) : Prop := Forall D (abuf x) /\ Forall tD (aupd x).
Lemma D_nth l i x : Forall D l -> nth_error l i = Some x -> D x.
Proof. intros H E. rewrite Forall_forall in H. apply H. eapply nth_error_In; eauto. Qed.
Lemma rot_D idxs : forall p el us el' us', D p -> Forall D el -> Forall tD us -> rot_loop idxs p el us = Some (el', us') -> Forall D el' /\ Forall tD us'.
Proof.
  induction idxs as [|i r IH]; intros p el us el' us' Hp He Hu H; cbn [rot_loop] in H; [injection H as <- <-; auto|].
  destruct (nth_error el i) as [x|] eqn:E; [|discriminate]. assert (Hx : D x) by (eapply D_nth; eauto).
  refine (IH x (lset i p el) _ _ _ Hx (Forall_lset _ i p el Hp He) _ H). apply Forall_app. split; auto. constructor; auto. now apply t_change.
Qed.
Lemma l_rotate_D d a b d' : LD d -> l_rotate d a b = Some d' -> LD d'.
Proof.
  intros [H1 H2] E. unfold l_rotate in E. destruct (a =? b); [injection E as <-; split; auto|]. destruct (negb _); [discriminate|].
  destruct (nth_error (abuf d) b) as [p|] eqn:Ep; [|discriminate]. destruct (rot_loop (rot_indices a b) p (abuf d) []) as [[el us]|] eqn:Er; [|discriminate]. injection E as <-.
  destruct (rot_D _ _ _ _ _ _ (D_nth _ _ _ H1 Ep) H1 (Forall_nil _) Er) as [A B]. split; cbn [abuf aupd]; auto. apply Forall_app. auto.
Qed.
Lemma l_swap_D d i j d' : LD d -> l_swap d i j = Some d' -> LD d'.
Proof.
  intros [H1 H2] E. unfold l_swap in E. destruct (i =? j); [injection E as <-; split; auto|].
  destruct (nth_error (abuf d) i) as [x|] eqn:Ei; [|discriminate]. destruct (nth_error (abuf d) j) as [y|] eqn:Ej; [|discriminate]. injection E as <-.
  pose proof (D_nth _ _ _ H1 Ei). pose proof (D_nth _ _ _ H1 Ej). split; cbn [abuf aupd]; [now repeat apply Forall_lset|].
  apply Forall_app. split; auto. constructor; [now apply t_change|]. constructor; [now apply t_change|constructor].
Qed.
Lemma del_D idxs : forall l us l' us', Forall D l -> Forall tD us -> del_loop idxs l us = Some (l', us') -> Forall D l' /\ Forall tD us'.
Proof.
  induction idxs as [|i r IH]; intros l us l' us' Hl Hu H; cbn [del_loop] in H; [injection H as <- <-; auto|].
  destruct (nth_error l i) as [x|] eqn:E; [|discriminate]. destruct (nth_error l (S i)) as [y|] eqn:E'; [|discriminate].
  pose proof (D_nth _ _ _ Hl E). pose proof (D_nth _ _ _ Hl E'). refine (IH _ _ _ _ (Forall_lset _ i y l _ Hl) _ H); auto. apply Forall_app. split; auto. constructor; auto. now apply t_change.
Qed.
Lemma ins_D idxs : forall v l us v' l' us', D v -> Forall D l -> Forall tD us -> ins_loop idxs v l us = Some (v', l', us') -> D v' /\ Forall D l' /\ Forall tD us'.
Proof.
  induction idxs as [|i r IH]; intros v l us v' l' us' Hv Hl Hu H; cbn [ins_loop] in H; [injection H as <- <- <-; auto|].
  destruct (nth_error l i) as [x|] eqn:E; [|discriminate]. pose proof (D_nth _ _ _ Hl E) as Hx.
  refine (IH _ _ _ _ _ _ Hx (Forall_lset _ i v l Hv Hl) _ H). apply Forall_app. split; auto. constructor; auto. now apply t_change.
Qed.
Lemma l_pop_D d i v d' : LD d -> l_pop d i = Some (v, d') -> D v /\ LD d'.
Proof.
  intros [H1 H2] E. unfold l_pop in E. destruct (nth_error (abuf d) i) as [x|] eqn:Ei; [|discriminate].
  destruct (del_loop (seq i (length (abuf d) - 1 - i)) (abuf d) (aupd d)) as [[l us]|] eqn:Ed; [|discriminate]. destruct (nth_error l (length (abuf d) - 1)) as [y|] eqn:Ey; [|discriminate].
  injection E as <- <-. destruct (del_D _ _ _ _ _ H1 H2 Ed) as [A B]. split; [exact (D_nth _ _ _ H1 Ei)|]. split; cbn [abuf aupd]; [|apply Forall_app; split; auto; constructor; auto; apply t_removal; exact (D_nth _ _ _ A Ey)].
  apply Forall_forall. intros z Hz. rewrite Forall_forall in A. apply A. rewrite <- (firstn_skipn (length (abuf d) - 1) l). apply in_or_app. now left.
Qed.
Lemma l_insert_D d j v d' : LD d -> D v -> l_insert d j v = Some d' -> LD d'.
Proof.
  intros [H1 H2] Hv E. unfold l_insert in E. destruct (ins_loop (seq j (length (abuf d) - j)) v (abuf d) (aupd d)) as [[[v' l] us]|] eqn:Ei; [|discriminate]. injection E as <-.
  destruct (ins_D _ _ _ _ _ _ _ Hv H1 H2 Ei) as (A & B & C). split; cbn [abuf aupd]; apply Forall_app; split; auto. constructor; auto. now apply t_placement.
Qed.
Lemma on_list_D d k f d' : Forall LD d -> (forall x y, LD x -> f x = Some y -> LD y) -> on_list d k f = Some d' -> Forall LD d'.
Proof.
  intros H Hf E. unfold on_list in E. destruct (nth_error d k) as [x|] eqn:Ex; [|discriminate]. destruct (f x) as [y|] eqn:Ey; [|discriminate]. injection E as <-.
  apply Forall_lset; auto. eapply Hf; eauto. rewrite Forall_forall in H. apply H. eapply nth_error_In; eauto.
Qed.
Lemma lists_move_D d d' : Forall LD d -> lists_move d d' -> Forall LD d'.
Proof.
  intros H (o & Ho & E). destruct o as [k a b|k i j|f i t j|k vs| |]; try contradiction; cbn [dl_step] in E.
  - eapply on_list_D; [exact H| |exact E]. intros x y Hx Hy. exact (l_rotate_D _ _ _ _ Hx Hy).
  - eapply on_list_D; [exact H| |exact E]. intros x y Hx Hy. exact (l_swap_D _ _ _ _ Hx Hy).
  - unfold dl_pop_to in E. destruct (nth_error d f) as [x|] eqn:Ex; [|discriminate]. destruct (nth_error d t) as [y|] eqn:Ey; [|discriminate]. destruct (negb _); [discriminate|].
    destruct (l_pop x i) as [[v x']|] eqn:Ep; [|discriminate]. assert (Hx : LD x) by (rewrite Forall_forall in H; apply H; eapply nth_error_In; eauto). destruct (l_pop_D _ _ _ _ Hx Ep) as [Hv Hx'].
    eapply on_list_D; [apply Forall_lset; [exact Hx'|exact H]| |exact E]. intros a b Ha Hb. exact (l_insert_D _ _ _ _ Ha Hv Hb).
Qed.
End Logs.

(** ** Disjoint lists *)
Lemma lists_move_spec c d d' : DInv c d -> lists_move d d' -> d' = d \/ exists o, no_set o /\ o <> DCommit /\ o <> DRevert /\ exists st, dlspec_op (c, dl_view d) o = Some st /\ fst st = c /\ DInv c d' /\ dl_view d' = snd st.
Proof.
  intros HI (o & Ho & E).
  assert (Gn : forall st, dlspec_op (c, dl_view d) o = Some st -> d' = d \/ exists o, no_set o /\ o <> DCommit /\ o <> DRevert /\ exists st, dlspec_op (c, dl_view d) o = Some st /\ fst st = c /\ DInv c d' /\ dl_view d' = snd st).
  { intros st Es. right. exists o. assert (Q : no_set o /\ o <> DCommit /\ o <> DRevert) by (clear -Ho; destruct o; try contradiction; cbn [no_set]; repeat split; discriminate).
    destruct Q as (Q1 & Q2 & Q3). split; [exact Q1|]. split; [exact Q2|]. split; [exact Q3|]. exists st. split; [exact Es|].
    destruct (dl_step_spec _ _ _ _ HI Es) as (d1 & E1 & A & B). assert (d1 = d') by congruence. subst d1.
    assert (Ef : fst st = c). { destruct o; try contradiction; cbn [dlspec_op] in Es; repeat match type of Es with (match ?x with _ => _ end) = _ => destruct x; try discriminate end; injection Es as <-; reflexivity. }
    split; [exact Ef|]. rewrite Ef in A. auto. }
  destruct o as [k a b|k i j|f i t j|k vs| |]; try contradiction; cbn [dl_step] in E; cbn [dlspec_op] in Gn.
  - unfold dl_rotate, on_list in E. destruct (nth_error d k) as [x|] eqn:Ex; [|discriminate]. rewrite (dl_view_get _ _ _ Ex) in Gn. unfold l_rotate in E. destruct (Nat.eqb_spec a b) as [->|Hne].
    + left. injection E as <-. now apply lset_same.
    + destruct (Nat.ltb_spec b (length (abuf x))); [|discriminate]. destruct (Nat.ltb_spec a (length (abuf x))); [|discriminate]. eapply Gn. reflexivity.
  - unfold dl_swap, on_list in E. destruct (nth_error d k) as [x|] eqn:Ex; [|discriminate]. rewrite (dl_view_get _ _ _ Ex) in Gn. unfold l_swap in E. destruct (Nat.eqb_spec i j) as [->|Hne].
    + left. injection E as <-. now apply lset_same.
    + destruct (nth_error (abuf x) i) as [u|] eqn:Eu; [|discriminate]. destruct (nth_error (abuf x) j) as [v|] eqn:Ev; [|discriminate].
      rewrite (proj2 (Nat.ltb_lt i _)) in Gn by (eapply nth_error_lt; eauto). rewrite (proj2 (Nat.ltb_lt j _)) in Gn by (eapply nth_error_lt; eauto). eapply Gn. reflexivity.
  - unfold dl_pop_to in E. destruct (nth_error d f) as [x|] eqn:Ex; [|discriminate]. destruct (nth_error d t) as [y|] eqn:Ey; [|discriminate]. rewrite (dl_view_get _ _ _ Ex), (dl_view_get _ _ _ Ey) in Gn.
    destruct (Nat.ltb_spec i (length (abuf x))) as [Li|]; [|discriminate]. destruct (Nat.leb_spec j (length (abuf y))); [|discriminate]. destruct (nth_error_get _ Li) as (v & Ev). rewrite Ev in Gn.
    destruct (nth_error (lset f (delete_at i (abuf x)) (dl_view d)) t) as [l|] eqn:El; [eapply Gn; reflexivity|]. exfalso. apply nth_error_None in El. rewrite lset_length in El.
    pose proof (nth_error_lt _ _ (dl_view_get _ _ _ Ey)). lia.
Qed.

Section ListsMain.
Variables n k : nat.
Hypothesis Hk : 0 < k.
Notation D := (whole 0 (Z.of_nat n - 1)).
Definition lgood (ls : list (list num)) : Prop := list_partition n ls /\ length ls = k.
Lemma lgood_D ls : lgood ls -> Forall (Forall D) ls.
Proof.
  intros [[_ H] _]. apply Forall_forall. intros l Hl. apply Forall_forall. intros x Hx. destruct (proj1 (H x)) as (z & -> & Hz); [apply in_concat; eauto|]. exists z. split; auto. lia.
Qed.
Definition LI (c : list (list num)) (d : list (@adata num)) : Prop := DInv c d /\ lgood c /\ lgood (dl_view d) /\ Forall (LD D) d.
Lemma LI_init c : lgood c -> LI c (map (@a_init num) c).
Proof.
  intros H. split; [apply DInv_init|]. split; [exact H|]. rewrite dl_view_init. split; [exact H|]. apply Forall_map. pose proof (lgood_D c H) as F. eapply Forall_impl; [|exact F]. intros l Hl. split; [exact Hl|constructor].
Qed.
Lemma LI_step c d d' : LI c d -> lists_move d d' -> LI c d'.
Proof.
  intros (H1 & H2 & H3 & H4) M. pose proof (lists_move_D _ _ _ H4 M) as H4'. destruct (lists_move_spec _ _ _ H1 M) as [->|(o & Ho & Hc & Hr & [c' ls'] & Es & Ef & A & B)]; [repeat (split; auto)|].
  cbn [fst snd] in *. subst c'. split; [exact A|]. split; [exact H2|]. split; [|exact H4'].
  assert (P : Permutation (concat c) (concat (dl_view d))).
  { destruct H2 as [P2 _], H3 as [P3 _]. destruct P2 as [N2 I2], P3 as [N3 I3]. apply NoDup_Permutation; auto. intros x. now rewrite I2, I3. }
  destruct (dlspec_op_perm _ _ _ _ _ Ho P Es) as [_ P']. split; [rewrite B; eapply list_partition_perm; [exact P'|apply H2]|].
  unfold dl_view. rewrite map_length. pose proof (F2_len _ _ _ A). destruct H2. congruence.
Qed.
Lemma quiet_init c : group_pin c c (map (@length num) c) (map (fun _ => []) c) = still (wire c).
Proof. unfold group_pin. replace (quiet c (map (@length num) c) (map (fun _ => []) c)) with true; [reflexivity|]. symmetry. apply quiet_true. split; [|reflexivity]. apply Forall_map, Forall_forall. auto. Qed.
Lemma lists_out c d dbg : DInv c d -> vn_out (lists_vnode dbg n k) d [] = Some (group_pin c (dl_view d) (map (fun x => aprev x) d) (map (fun x => aupd x) d)).
Proof.
  intros H. cbn [vn_out lists_vnode]. assert (E : dl_revert d = Some (map (@a_init num) c)). { destruct (dl_step_spec c d DRevert _ H eq_refl) as (d' & E & _). cbn [dl_step] in E. rewrite E. f_equal.
    unfold dl_revert in E. clear -H E. revert d' E. induction H as [|ck x c d HL H IH]; intros d' E; cbn in E; [injection E as <-; reflexivity|]. rewrite (l_revert_spec _ _ HL) in E.
    destruct (all_some (map l_revert d)) as [r|] eqn:Er; [|discriminate]. injection E as <-. cbn [map]. f_equal. now apply IH. }
  rewrite E, dl_view_init. reflexivity.
Qed.
Lemma LI_group c d : LI c d -> group_ok lgood D false (group_pin c (dl_view d) (map (fun x => aprev x) d) (map (fun x => aupd x) d)).
Proof.
  intros (H1 & H2 & H3 & H4). exists c, (dl_view d), (map (fun x => aprev x) d), (map (fun x => aupd x) d). split; [reflexivity|]. split; [exact H2|]. split; [exact H3|].
  pose proof (F2_len _ _ _ H1). unfold dl_view. rewrite !map_length. split; [auto|]. split; [auto|]. split; [auto|].
  intros i o v us q Ho Hv Hu Hq. rewrite nth_error_map in Hv. rewrite nth_error_map in Hu. rewrite nth_error_map in Hq. destruct (nth_error d i) as [x|] eqn:Ex; [|discriminate]. cbn [option_map] in *. injection Hv as <-. injection Hu as <-. injection Hq as <-.
  destruct (Forall2_nth_r _ _ _ _ _ H1 Ex) as (o' & Ho' & [P R]). assert (o' = o) by congruence. subst o'. split; [exact R|]. split; [exact P|]. split; [discriminate|].
  split; [pose proof (lgood_D _ H2) as F; rewrite Forall_forall in F; apply F; eapply nth_error_In; eauto|]. rewrite Forall_forall in H4. exact (H4 _ (nth_error_In _ _ Ex)).
Qed.
Lemma quiet_same c d : DInv c d -> quiet (dl_view d) (map (fun x => aprev x) d) (map (fun x => aupd x) d) = true -> c = dl_view d.
Proof.
  intros H Q. apply quiet_true in Q. destruct Q as [Q _]. unfold dl_view. induction H as [|ck x c d [_ R] H IH]; [reflexivity|]. cbn [map] in *. inversion Q as [|? ? Q1 Q2]; subst.
  f_equal; [|auto]. rewrite Q1 in R. unfold replay in R. cbn in R. congruence.
Qed.
Lemma assert_ok ls : list_partition n ls -> lists_assert n ls = true.
Proof.
  intros H. apply list_partition_iff in H. destruct H as (zs & E & Hnd & Hf & Hlen). unfold lists_assert. rewrite E.
  assert (G : forall zs seen, NoDup zs -> Forall (fun z => (0 <= z < Z.of_nat n)%Z) zs -> (forall z, In z zs -> ~ In z seen) ->
    fold_left (fun acc x => match acc with None => None | Some seen => if qltb x 0 || qleb (nq n) x || existsb (Z.eqb (qtrunc x)) seen then None else Some (qtrunc x :: seen) end) (map zq zs) (Some seen) = Some (rev zs ++ seen)).
  { clear. induction zs as [|z zs IH]; intros seen Hnd Hf Hd; [reflexivity|]. inversion Hnd; inversion Hf; subst. cbn [map fold_left]. rewrite qtrunc_zq.
    replace (qltb (zq z) 0) with false. 2:{ symmetry. rewrite <- zq_0. destruct (qltb_spec (zq z) (zq 0)) as [L|]; [rewrite zq_lt in L; lia|reflexivity]. }
    replace (qleb (nq n) (zq z)) with false. 2:{ symmetry. unfold nq. destruct (qleb_spec (zq (Z.of_nat n)) (zq z)) as [L|]; [rewrite zq_le in L; lia|reflexivity]. }
    replace (existsb (Z.eqb z) seen) with false. 2:{ symmetry. destruct (existsb (Z.eqb z) seen) eqn:Ex; [|reflexivity]. apply existsb_exists in Ex. destruct Ex as (y & Hy & Ey). exfalso. apply (Hd z); [now left|]. replace z with y by lia. exact Hy. }
    cbn [orb]. rewrite IH; auto; [cbn [rev]; now rewrite <- app_assoc|]. intros w Hw [<-|Hs]; [contradiction|]. apply (Hd w); [now right|exact Hs]. }
  rewrite (G zs []) by auto. apply forallb_forall. intros i Hi. apply in_seq in Hi. apply existsb_exists. exists (Z.of_nat i). split; [|lia]. rewrite app_nil_r. apply in_rev. rewrite rev_involutive.
  assert (P : Permutation zs (map Z.of_nat (seq 0 n))).
  { apply NoDup_Permutation_bis; auto; [rewrite map_length, seq_length; lia|]. intros z Hz. rewrite Forall_forall in Hf. apply Hf in Hz. apply in_map_iff. exists (Z.to_nat z). split; [lia|]. apply in_seq. lia. }
  eapply Permutation_in; [symmetry; exact P|]. apply in_map. apply in_seq. lia.
Qed.
Lemma lists_decides dbg : decides qeqb (lists_vnode dbg n k) (group_ok lgood D false) (lists_start n k) lists_move.
Proof.
  exists (fun v d => exists c, v = wire c /\ d = map (@a_init num) c /\ lgood c). unfold dcontract. split; [|split].
  - intros d [E|(contents & E)].
    + destruct (dl_init_default_spec n k Hk) as [E' P]. rewrite E' in E. injection E as <-. eexists. exists (qrange n :: repeat [] (k - 1)). split; [reflexivity|]. split; [reflexivity|]. split; [exact P|]. cbn [length]. rewrite repeat_length. lia.
    + destruct (dl_init_spec n k contents) as [A B]. exists (wire contents), contents. split; [reflexivity|].
      assert (H : length contents = k /\ list_partition n contents).
      { destruct (Nat.eq_dec (length contents) k) as [El|El]; [|rewrite B in E by tauto; discriminate]. split; [exact El|]. unfold dl_init in E. rewrite El, Nat.eqb_refl in E. cbn [negb] in E. rewrite fold_concat in E.
        destruct (fold_left (dl_check1 n) (concat contents) (Some [])) as [seen|] eqn:Ef; [|discriminate]. apply dl_scan in Ef. destruct Ef as (zs & Ec & Hf & Hnd & _ & ->).
        rewrite app_nil_r, rev_length in E. destruct (Nat.eqb_spec (length zs) n) as [Hl|]; cbn [negb] in E; [|discriminate]. apply list_partition_iff. exists zs. auto. }
      rewrite A in E by exact H. injection E as <-. split; [reflexivity|]. destruct H. split; auto.
  - intros v d (c & -> & -> & Hg). split; [unfold fits, fits_len; cbn [vn_shape lists_vnode dynamic]; exists (Z.of_nat (length (wire c))); cbn; lia|].
    assert (Ep : map (fun x => aprev x) (map (@a_init num) c) = map (@length num) c) by (rewrite map_map; reflexivity). assert (Eu : map (fun x => aupd x) (map (@a_init num) c) = map (fun _ => []) c) by (rewrite map_map; reflexivity).
    pose proof (LI_group _ _ (LI_init c Hg)) as G. pose proof (lists_out c _ dbg (DInv_init c)) as O. rewrite dl_view_init, Ep, Eu, quiet_init in G, O. auto.
  - intros v d d' (c & -> & -> & Hg) R. assert (I : LI c d').
    { apply clos_rt_rtn1 in R. induction R as [|y z St _ IH]; [now apply LI_init|eapply LI_step; eauto]. }
    pose proof I as (H1 & _ & H3 & _). split; [cbn [vn_prop lists_vnode]; rewrite (assert_ok _ (proj1 H3)); cbn [negb]; now rewrite Bool.andb_false_r|]. split.
    + eexists. split; [apply lists_out; exact H1|]. split; [apply group_pin_fits; now apply quiet_same|]. split; [now apply LI_group|].
      eexists. split; [reflexivity|]. rewrite group_pin_view. exists (dl_view d'). split; [reflexivity|]. split; [|exact H3].
      unfold dl_commit, dl_view. rewrite map_map. clear -H1. induction H1 as [|ck x c d HL H IH]; [reflexivity|]. cbn [map]. now rewrite IH, (l_commit_spec _ _ HL).
    + cbn [vn_revert lists_vnode]. pose proof (lists_out c d' dbg H1) as O. cbn [vn_out lists_vnode] in O. destruct (dl_step_spec c d' DRevert _ H1 eq_refl) as (d1 & E & A & B). cbn [dl_step] in E. rewrite E. cbn [of_opt].
      exists d1. split; [reflexivity|]. exists c. split; [reflexivity|]. split; [|exact Hg]. cbn [fst snd] in *.
      unfold dl_revert in E. clear -H1 E. revert d1 E. induction H1 as [|ck x c d HL H IH]; intros d' E; cbn in E; [injection E as <-; reflexivity|]. rewrite (l_revert_spec _ _ HL) in E.
      destruct (all_some (map l_revert d)) as [r|] eqn:Er; [|discriminate]. injection E as <-. cbn [map]. f_equal. now apply IH.
Qed.
End ListsMain.
