(** Lemmas about disjoint collections in whole models: writing contents and logs into a pin and reading them. *)
From Coq Require Import Relations Permutation.
From Verif Require Import Base Num SliceModel StateDataModel StateDataSpec StateDataProofs Replay NodeSpec NodeLib NumbersModel
  CollectionsModel CollectionsSpec CollectionsProofs DisjointModel DisjointSpec DisjointProofs ViewModel ProposeModel ProposeSpec ProposeProofs3 GroupModel GroupSpec.
Local Open Scope nat_scope.

Lemma nq_back k : Z.to_nat (qtrunc (nq k)) = k.
Proof. unfold nq. rewrite qtrunc_zq. lia. Qed.
Lemma unwire_wire ls : forall i l rest, nth_error ls i = Some l -> unwire i (wire ls ++ rest) = Some l.
Proof.
  induction ls as [|a ls IH]; intros i l rest H; [destruct i; discriminate|].
  assert (E : wire (a :: ls) ++ rest = nq (length a) :: a ++ wire ls ++ rest) by (unfold wire; cbn [flat_map app]; now rewrite <- app_assoc).
  rewrite E. destruct i as [|i]; cbn [unwire nth_error] in *; rewrite nq_back;
    (replace (length (a ++ wire ls ++ rest) <? length a) with false by (symmetry; apply Nat.ltb_ge; rewrite app_length; lia)).
  - injection H as <-. now rewrite firstn_app, Nat.sub_diag, firstn_all, firstn_O, app_nil_r.
  - rewrite skipn_app, Nat.sub_diag, skipn_all. cbn [app skipn]. now apply IH.
Qed.
Lemma unwire_some ls i l : nth_error ls i = Some l -> unwire i (wire ls) = Some l.
Proof. intros H. rewrite <- (app_nil_r (wire ls)). now apply unwire_wire. Qed.
Lemma unwire_none ls : forall i, nth_error ls i = None -> unwire i (wire ls) = None.
Proof.
  induction ls as [|a ls IH]; intros i H; [destruct i; reflexivity|]. destruct i as [|i]; [discriminate|].
  change (wire (a :: ls)) with (nq (length a) :: a ++ wire ls). cbn [unwire nth_error] in *. rewrite nq_back.
  replace (length (a ++ wire ls) <? length a) with false by (symmetry; apply Nat.ltb_ge; rewrite app_length; lia).
  rewrite skipn_app, Nat.sub_diag, skipn_all. cbn [app skipn]. auto.
Qed.
Lemma unwire_nth ls i : unwire i (wire ls) = nth_error ls i.
Proof. destruct (nth_error ls i) eqn:E; [now apply unwire_some|now apply unwire_none]. Qed.

Lemma unwire_update_wire u : unwire_opt (zq 1) u = Some u.
Proof. reflexivity. Qed.
Lemma unwire_updates_wire us : unwire_updates (flat_map wire_update us) = Some us.
Proof.
  induction us as [|[i o v] us IH]; [reflexivity|]. destruct o as [o|], v as [v|]; cbn [flat_map wire_update wire_opt uold uval uidx app unwire_updates]; rewrite IH, nq_back; reflexivity.
Qed.

(** Clearing and writing. *)
Lemma seq_snoc_combine {A} (l : list A) x k : combine (seq k (length (l ++ [x]))) (l ++ [x]) = combine (seq k (length l)) l ++ [(k + length l, x)].
Proof.
  revert k. induction l as [|a l IH]; intros k; cbn [app length seq combine]; [now rewrite Nat.add_0_r|]. rewrite IH. now rewrite <- plus_n_Sm.
Qed.
Lemma placed_snoc l x : placed (l ++ [x]) = placed l ++ [placement (length l) x].
Proof. unfold placed. rewrite seq_snoc_combine, map_app. reflexivity. Qed.
Lemma cleared_snoc l x : cleared (l ++ [x]) = removal (length l) x :: cleared l.
Proof. unfold cleared. rewrite seq_snoc_combine, map_app, rev_app_distr. reflexivity. Qed.
Lemma replay_placed l : rp [] (placed l) = Some l.
Proof.
  induction l as [|x l IH] using rev_ind; [reflexivity|]. rewrite placed_snoc. eapply rp_snoc; [exact IH|]. now apply rp_place.
Qed.
Lemma replay_cleared l : rp l (cleared l) = Some [].
Proof.
  induction l as [|x l IH] using rev_ind; [reflexivity|]. rewrite cleared_snoc. rewrite (rp_cons _ _ _ _ (rp_remove qeqb_spec l _ x eq_refl)). exact IH.
Qed.
Lemma cleared_val l : Forall (fun u => uval u = None) (cleared l).
Proof. induction l as [|x l IH] using rev_ind; [constructor|]. rewrite cleared_snoc. constructor; auto. Qed.
Lemma placed_cons x l : exists r, placed (x :: l) = placement 0 x :: r.
Proof. eexists. reflexivity. Qed.
Lemma after_cleared l us : match us with u :: _ => uval u <> None | [] => True end -> after_removed (cleared l ++ us) = us.
Proof.
  intros H. pose proof (cleared_val l) as F. induction F as [|u r Hu _ IH]; cbn [app after_removed].
  - destruct us as [|u r]; [reflexivity|]. cbn [after_removed]. destruct (uval u); congruence.
  - rewrite Hu. exact IH.
Qed.
Lemma first_placed_gen {B} (l : list B) : forall (f : B -> num) (k : B -> nat) us, match us with u :: _ => uval u = None | [] => True end ->
  first_placed (map (fun b => placement (k b) (f b)) l ++ us) = map f l.
Proof.
  induction l as [|b l IH]; intros f k us H; cbn [map app first_placed].
  - destruct us as [|u r]; [reflexivity|]. cbn [first_placed]. rewrite H. now destruct (uold u).
  - cbn [placement uold uval]. now rewrite IH.
Qed.
Lemma first_placed_placed l us : match us with u :: _ => uval u = None | [] => True end -> first_placed (placed l ++ us) = l.
Proof.
  intros H. unfold placed. rewrite first_placed_gen by exact H. clear. revert l. assert (G : forall (l : list num) k, map snd (combine (seq k (length l)) l) = l); [|intros; apply G].
  induction l as [|a l IH]; intros k; cbn [length seq combine map snd]; [reflexivity|]. now rewrite IH.
Qed.
Lemma cleared_start w a x us r : rp w (cleared a ++ placement 0 x :: us) = Some r -> w = a.
Proof.
  intros H. destruct (rp_app_inv _ _ _ _ H) as (l1 & H1 & H2). destruct (rp_cons_inv _ _ _ _ H2) as (l2 & H3 & _).
  assert (l1 = []). { unfold replay1 in H3. cbn [placement uold uval uidx] in H3. destruct l1; [reflexivity|discriminate]. }
  subst l1. apply l_undo_spec in H1. pose proof (replay_cleared a) as Ha. apply l_undo_spec in Ha. congruence.
Qed.
Lemma notes_cons prevs logs : exists x r, notes prevs logs = x :: r.
Proof. unfold notes, wire. cbn [flat_map app]. eexists. eexists. reflexivity. Qed.

Lemma quiet_true new prevs logs : quiet new prevs logs = true <-> Forall (fun us => us = []) logs /\ prevs = map (@length num) new.
Proof.
  unfold quiet. rewrite Bool.andb_true_iff, forallb_forall, Forall_forall. destruct (list_eq_dec Nat.eq_dec prevs (map (@length num) new)) as [E|E].
  - split; intros [H _]; (split; [|auto]); intros us Hu; specialize (H us Hu); destruct us; auto; discriminate.
  - split; intros [_ H]; [discriminate|contradiction].
Qed.
(** What the pin of the parent is to a reader of the contents only. *)
Lemma group_pin_view old new prevs logs : pview (group_pin old new prevs logs) = wire new.
Proof. unfold group_pin. now destruct (quiet new prevs logs). Qed.
Lemma group_pin_fits old new prevs logs : (quiet new prevs logs = true -> old = new) -> pin_ok qeqb [-1]%Z (wire old) (group_pin old new prevs logs).
Proof.
  assert (Ft : forall l : list num, fits [-1]%Z l) by (intros l; unfold fits, fits_len; cbn [dynamic]; exists (Z.of_nat (length l)); cbn; lia).
  intros H. unfold group_pin. destruct (quiet new prevs logs) eqn:E.
  - rewrite H by auto. split; cbn [still pview pdiff psdiff]; [apply Ft|apply Ft|reflexivity|lia|discriminate].
  - split; cbn [pview pdiff psdiff]; auto; [|discriminate].
    rewrite (rp_app _ _ _ _ (replay_cleared _)), (rp_app _ _ _ _ (replay_placed _)), (rp_app _ _ _ _ (replay_cleared _)). apply replay_placed.
Qed.

(** What a part reads. *)
Lemma part_pin_quiet old new prevs logs i v : quiet new prevs logs = true -> nth_error new i = Some v -> part_pin i (group_pin old new prevs logs) = Some (still v).
Proof. intros Q H. unfold part_pin, group_pin. rewrite Q. cbn [still pview pdiff]. now rewrite unwire_nth, H. Qed.
Lemma part_pin_busy old new prevs logs i v us k : quiet new prevs logs = false -> nth_error new i = Some v -> nth_error logs i = Some us -> nth_error prevs i = Some k ->
  part_pin i (group_pin old new prevs logs) = Some {| pview := v; pdiff := us; psdiff := (Z.of_nat (length v) - Z.of_nat k)%Z |}.
Proof.
  intros Q Hv Hu Hk. unfold part_pin. rewrite group_pin_view, unwire_nth, Hv. unfold group_pin. rewrite Q. cbn [pdiff].
  destruct (notes_cons prevs logs) as (x & r & En). destruct (placed_cons x r) as (t & Ep).
  set (tail := cleared (notes prevs logs) ++ placed (wire new)).
  assert (A : after_removed (cleared (wire old) ++ placed (notes prevs logs) ++ tail) = placed (notes prevs logs) ++ tail) by (apply after_cleared; rewrite En, Ep; cbn; discriminate).
  assert (B : first_placed (placed (notes prevs logs) ++ tail) = notes prevs logs).
  { apply first_placed_placed. unfold tail. pose proof (cleared_val (notes prevs logs)) as F. destruct (cleared (notes prevs logs)) as [|u q] eqn:Ec; [|inversion F; auto].
    exfalso. rewrite En in Ec. unfold cleared in Ec. apply (f_equal (@length _)) in Ec. rewrite rev_length, map_length, combine_length, seq_length in Ec. cbn in Ec. lia. }
  fold tail. destruct (cleared (wire old) ++ placed (notes prevs logs) ++ tail) as [|u q] eqn:E.
  { exfalso. apply (f_equal (@length _)) in E. rewrite En, Ep, !app_length in E. cbn in E. lia. }
  rewrite A, B. unfold notes. rewrite !unwire_nth. cbn [nth_error]. rewrite nth_error_map, Hu. cbn [option_map]. rewrite nth_error_map, Hk. cbn [option_map]. rewrite unwire_updates_wire. unfold nq. now rewrite qtrunc_zq.
Qed.

Lemma wholeb_iff lo hi x : wholeb lo hi x = true <-> whole lo hi x.
Proof.
  unfold wholeb, whole. rewrite !Bool.andb_true_iff. split.
  - intros [[E L] H]. exists (qtrunc x). destruct (qeqb_spec (zq (qtrunc x)) x) as [Ex|]; [|discriminate]. split; [auto|lia].
  - intros (z & -> & Hz). rewrite qtrunc_zq, qeqb_refl. split; [split; [auto|lia]|lia].
Qed.
Lemma whole_all lo hi v : forallb (wholeb lo hi) v = true <-> Forall (whole lo hi) v.
Proof. rewrite forallb_forall, Forall_forall. split; intros H x Hx; specialize (H x Hx); now apply wholeb_iff in H || now apply wholeb_iff. Qed.

(** A part. *)
Definition part_shape (len : option nat) : list Z := [match len with Some n => Z.of_nat n | None => (-1)%Z end].
Definition is_fixed (len : option nat) : bool := match len with Some _ => true | None => false end.
Lemma part_fits len (v : list num) : match len with Some n => length v =? n | None => true end = true -> fits (part_shape len) v.
Proof.
  unfold fits, fits_len, part_shape. destruct len as [n|]; intros H.
  - apply Nat.eqb_eq in H. cbn [dynamic]. replace (Z.of_nat n <? 0)%Z with false by lia. cbn. lia.
  - cbn [dynamic]. exists (Z.of_nat (length v)). cbn. lia.
Qed.
Lemma part_fun_inv len lo hi i ins v : part_fun len lo hi i ins = Some v ->
  exists w, ins = [w] /\ unwire i w = Some v /\ match len with Some n => length v =? n | None => true end = true /\ Forall (whole lo hi) v.
Proof.
  unfold part_fun. destruct ins as [|w [|? ?]]; try discriminate. destruct (unwire i w) as [x|] eqn:E; [|discriminate].
  destruct (match len with Some n => length x =? n | None => true end) eqn:El; [|discriminate]. cbn [andb]. destruct (forallb (wholeb lo hi) x) eqn:Ef; [|discriminate].
  intros H. injection H as <-. exists w. split; [reflexivity|]. split; [exact E|]. split; [exact El|]. now apply whole_all.
Qed.
Lemma part_computes good len lo hi i : computes qeqb (part_vnode (part_shape len) i) [group_ok good (whole lo hi) (is_fixed len)] (within (whole lo hi)) (part_fun len lo hi i).
Proof.
  exists (fun ins _ => exists v, part_fun len lo hi i ins = Some v). unfold contract. cbn [vn_pre vn_shape vn_ST vn_init vn_out vn_prop vn_commit vn_revert part_vnode].
  split; [|split].
  - intros ins v _ E. destruct (part_fun_inv _ _ _ _ _ _ E) as (w & -> & _ & Hl & _). split; [now apply part_fits|]. exists tt. eauto.
  - intros ins s (v & E). exists v. split; [exact E|]. destruct (part_fun_inv _ _ _ _ _ _ E) as (w & -> & Hu & Hl & Hd). split; [split; [exact Hd|constructor]|].
    cbn [map]. unfold part_pin. cbn [still pview pdiff]. now rewrite Hu.
  - intros ins s v pins v' _ E HP _ HG E'. destruct (part_fun_inv _ _ _ _ _ _ E) as (w & -> & Hu & Hl & Hd).
    inversion HG as [|? p ? ? Hg Hn]; subst. inversion Hn; subst. cbn [combine] in HP. inversion HP as [|? ? ? ? Hp _]; subst. cbn [fst snd] in Hp. clear HP HG Hn.
    cbn [map] in E'. destruct (part_fun_inv _ _ _ _ _ _ E') as (w' & Ew' & Hu' & Hl' & Hd'). injection Ew' as <-.
    destruct Hg as (old & new & prevs & logs & -> & _ & _ & L1 & L2 & L3 & Hall). rewrite group_pin_view, unwire_nth in Hu'.
    assert (Hi : i < length new) by (apply nth_error_Some; congruence).
    destruct (nth_error old i) as [o|] eqn:Ho; [|apply nth_error_None in Ho; lia].
    destruct (nth_error prevs i) as [k|] eqn:Hk; [|apply nth_error_None in Hk; lia]. destruct (nth_error logs i) as [us|] eqn:Hus; [|apply nth_error_None in Hus; lia].
    destruct (Hall i o v' us k Ho Hu' Hus Hk) as (R & -> & Hc & Do & Dv & Dt).
    exists s. split; [reflexivity|]. assert (Fin : (exists s'' : unit, Ok s = Ok s'' /\ exists v0, part_fun len lo hi i (map pview [group_pin old new prevs logs]) = Some v0) /\ exists s'' : unit, Ok s = Ok s'' /\ exists v0, part_fun len lo hi i [w] = Some v0) by (split; exists s; (split; [reflexivity|]); [exists v'; exact E'|exists v; exact E]).
    split; [|exact Fin]. clear Fin. destruct (quiet new prevs logs) eqn:Q.
    + exists (still v'). split; [now apply part_pin_quiet|]. split; [reflexivity|].
      pose proof Hp as [_ _ Hr _ _]. unfold group_pin in Hr. rewrite Q in Hr. cbn [still pview pdiff] in Hr. assert (w = wire new) by (unfold replay in Hr; cbn in Hr; congruence). subst w.
      rewrite unwire_nth in Hu. assert (v' = v) by congruence. subst v'. split; [|split; [exact Hd|constructor]]. split; cbn [still pview pdiff psdiff]; auto using part_fits. lia.
    + eexists. split; [apply part_pin_busy; eauto|]. cbn [pview pdiff psdiff]. split; [reflexivity|].
      pose proof Hp as [_ _ Hr _ _]. unfold group_pin in Hr. rewrite Q in Hr. cbn [pview pdiff] in Hr.
      destruct (notes_cons prevs logs) as (x & r & En). destruct (placed_cons x r) as (t & Ep). rewrite En, Ep in Hr. cbn [app] in Hr. apply cleared_start in Hr. subst w.
      rewrite unwire_nth in Hu. assert (o = v) by congruence. subst o. split; [|split; [exact Dv|exact Dt]]. split; cbn [pview pdiff psdiff]; auto using part_fits.
      intros Dy. apply Hc. destruct len as [n|]; [reflexivity|discriminate].
Qed.
