(** Lemmas for proving [node_ok]. *)
From Verif Require Import Base StateDataModel StateDataSpec StateDataProofs Replay NodeSpec.

(** * Indexed map *)
Fixpoint mapi_from {A B} (i : nat) (g : nat -> A -> B) (l : list A) : list B :=
  match l with [] => [] | x :: t => g i x :: mapi_from (S i) g t end.
Definition mapi {A B} (g : nat -> A -> B) (l : list A) : list B := mapi_from 0 g l.

Lemma mapi_from_nth {A B} (g : nat -> A -> B) l : forall k i,
  nth_error (mapi_from k g l) i = option_map (g (k + i)) (nth_error l i).
Proof.
  induction l as [|x t IH]; intros k [|i]; cbn [mapi_from nth_error option_map]; auto.
  - now rewrite Nat.add_0_r.
  - rewrite IH. now replace (S k + i) with (k + S i) by lia.
Qed.
Lemma mapi_nth {A B} (g : nat -> A -> B) l i : nth_error (mapi g l) i = option_map (g i) (nth_error l i).
Proof. unfold mapi. apply (mapi_from_nth g l 0 i). Qed.
Lemma mapi_length {A B} (g : nat -> A -> B) l : length (mapi g l) = length l.
Proof. unfold mapi. generalize 0. induction l; intros n; cbn; auto. Qed.
Lemma mapi_map {A B} (g : A -> B) l : mapi (fun _ => g) l = map g l.
Proof. unfold mapi. generalize 0. induction l; intros n; cbn; f_equal; auto. Qed.
Lemma mapi_app {A B} (g : nat -> A -> B) l m : mapi g (l ++ m) = mapi g l ++ mapi (fun i => g (length l + i)) m.
Proof.
  apply nth_error_ext. intros i. rewrite mapi_nth.
  destruct (Nat.lt_ge_cases i (length l)).
  - rewrite !nth_error_app1 by (rewrite ?mapi_length; auto). now rewrite mapi_nth.
  - rewrite !nth_error_app2 by (rewrite ?mapi_length; auto). rewrite mapi_length, mapi_nth.
    now replace (length l + (i - length l)) with i by lia.
Qed.
Lemma mapi_snoc {A B} (g : nat -> A -> B) l x : mapi g (l ++ [x]) = mapi g l ++ [g (length l) x].
Proof. rewrite mapi_app. unfold mapi at 2. cbn [mapi_from]. now rewrite Nat.add_0_r. Qed.
Lemma mapi_lset {A B} (g : nat -> A -> B) l i x : mapi g (lset i x l) = lset i (g i x) (mapi g l).
Proof.
  apply nth_error_ext. intros j. rewrite mapi_nth, !nth_error_lset, mapi_length, mapi_nth.
  destruct (Nat.eqb_spec i j) as [->|]; cbn [andb]; auto. destruct (_ <? _); auto.
Qed.

Section Lib.
Context {V : Type} {veqb : V -> V -> bool}.
Variable vpad : V.
Variable spec : forall x y, reflect (x = y) (veqb x y).
Notation replay := (replay veqb).
Notation replay1 := (replay1 veqb).
Notation Inv := (Inv veqb).
Notation pin_ok := (pin_ok veqb).

Definition aout (d : @adata V) : pin V :=
  {| pview := abuf d; pdiff := aupd d; psdiff := a_size_diff d |}.

(** Nodes whose state is an [ArrayNodeStateData]. *)
Definition array_node_gen (out : @adata V -> pin V) (shape : list Z) (pre : list (list Z))
  (init : list (pin V) -> res (@adata V)) (prop : @adata V -> list (pin V) -> res (@adata V)) : node V :=
  {| nd_shape := shape; nd_pre := pre; nd_ST := @adata V;
     nd_init := init; nd_out := fun d _ => Some (out d); nd_prop := prop;
     nd_commit := @a_commit V;
     nd_revert := fun d => match a_revert vpad d with Some d' => Ok d' | None => UB end |}.
Definition array_node := array_node_gen aout.

Definition pins_ok (pre : list (list Z)) (ins : list (list V)) (pins : list (pin V)) : Prop :=
  Forall2 (fun si p => pin_ok (fst si) (snd si) p) (combine pre ins) pins.

Lemma pins_ok_olds pre ins pins : length pre = length ins -> pins_ok pre ins pins ->
  Forall2 fits pre ins /\ Forall2 fits pre (map (@pview V) pins).
Proof.
  unfold pins_ok. revert ins pins; induction pre as [|s pre IH]; intros [|i ins] pins L H; try discriminate L.
  - inversion H; subst. split; constructor.
  - inversion H as [|a p l l' Hp H']; subst. cbn in L.
    destruct (IH ins l' ltac:(lia) H') as [A B]. destruct Hp. cbn [fst snd] in *.
    split; constructor; auto.
Qed.

Lemma array_node_gen_ok out shape pre init prop (F : list (list V) -> option (list V)) :
  (forall v d, Inv v d -> fits shape v -> fits shape (abuf d) -> out d = aout d) ->
  (forall ins v, Forall2 fits pre ins -> F ins = Some v ->
     fits shape v /\ init (map still ins) = Ok (a_init v)) ->
  (forall ins v pins v', length pre = length ins -> F ins = Some v -> pins_ok pre ins pins ->
     F (map (@pview V) pins) = Some v' ->
     exists d', prop (a_init v) pins = Ok d' /\ Inv v d' /\ abuf d' = v' /\
       (dynamic shape = false -> Forall is_change (aupd d'))) ->
  node_ok veqb (array_node_gen out shape pre init prop) F.
Proof.
  intros HO H1 H2. constructor. exists (fun ins s => Forall2 fits pre ins /\ exists v, F ins = Some v /\ s = a_init v).
  split; [|split].
  - intros ins v Hf HF. destruct (H1 ins v Hf HF) as [A B]. split; [exact A|].
    exists (a_init v). split; [exact B|]. eauto.
  - intros ins s [Hf [v [HF ->]]]. exists v. split; [exact HF|]. cbn [nd_out array_node_gen].
    destruct (H1 ins v Hf HF) as [A _]. rewrite (HO v (a_init v) (Inv_init veqb v) A A). unfold aout, still, a_size_diff.
    cbn [abuf aupd aprev a_init]. f_equal. f_equal. lia.
  - intros ins s v pins v' [Hf [v0 [HF ->]]] HF0 HP L HF'.
    assert (v0 = v) by congruence. subst v0. cbn [nd_pre nd_prop nd_out nd_commit nd_revert nd_shape array_node_gen] in *.
    destruct (H2 ins v pins v' L HF HP HF') as [d' [E [[I1 I2] [B C]]]].
    exists d'. split; [exact E|]. destruct (pins_ok_olds pre ins pins L HP) as [G1 G2].
    pose proof (proj1 (H1 ins v G1 HF)) as Fo. pose proof (proj1 (H1 _ v' G2 HF')) as Fn.
    split; [|split].
    + exists (aout d'). rewrite (HO v d' (conj I1 I2) Fo) by (rewrite B; exact Fn).
      split; [reflexivity|]. split; [exact B|]. constructor; cbn [aout pview pdiff psdiff].
      * exact Fo.
      * rewrite B. exact Fn.
      * exact I2.
      * unfold a_size_diff. rewrite I1. reflexivity.
      * exact C.
    + split; [exact G2|]. exists v'. split; [exact HF'|]. unfold a_commit, a_init. rewrite B. reflexivity.
    + exists (a_init v). split; [|eauto]. rewrite (revert_replay veqb spec vpad v d' I1 I2). reflexivity.
Qed.

Lemma array_node_ok shape pre init prop (F : list (list V) -> option (list V)) :
  (forall ins v, Forall2 fits pre ins -> F ins = Some v ->
     fits shape v /\ init (map still ins) = Ok (a_init v)) ->
  (forall ins v pins v', length pre = length ins -> F ins = Some v -> pins_ok pre ins pins ->
     F (map (@pview V) pins) = Some v' ->
     exists d', prop (a_init v) pins = Ok d' /\ Inv v d' /\ abuf d' = v' /\
       (dynamic shape = false -> Forall is_change (aupd d'))) ->
  node_ok veqb (array_node shape pre init prop) F.
Proof. apply array_node_gen_ok. auto. Qed.

(** Nodes whose state is a [ScalarNodeStateData]. *)
Definition sout (d : @sdata V) : pin V :=
  {| pview := [sval d]; pdiff := s_diff veqb d; psdiff := 0%Z |}.
Definition scalar_node (pre : list (list Z))
  (init : list (pin V) -> res (@sdata V)) (prop : @sdata V -> list (pin V) -> res (@sdata V)) : node V :=
  {| nd_shape := []; nd_pre := pre; nd_ST := @sdata V;
     nd_init := init; nd_out := fun d _ => Some (sout d); nd_prop := prop;
     nd_commit := @s_commit V; nd_revert := fun d => Ok (s_revert d) |}.

Lemma sout_ok x x' : pin_ok [] [x] (sout {| sold := x; sval := x' |}).
Proof.
  constructor; cbn [sout pview pdiff psdiff sval]; try reflexivity.
  - unfold s_diff. cbn [sold sval]. destruct (spec x x') as [->|N]; [apply rp_nil|].
    rewrite rp_cons_eq. rewrite (rp_change spec [x] 0 x x' eq_refl). cbn [lset]. apply rp_nil.
  - intros _. unfold s_diff. cbn [sold sval]. destruct (veqb x x'); constructor; [|constructor]. split; discriminate.
Qed.

Lemma scalar_node_ok pre init prop (F : list (list V) -> option (list V)) :
  (forall ins v, Forall2 fits pre ins -> F ins = Some v -> exists x, v = [x] /\ init (map still ins) = Ok (s_init x)) ->
  (forall ins x pins x', length pre = length ins -> F ins = Some [x] -> pins_ok pre ins pins ->
     F (map (@pview V) pins) = Some [x'] -> prop (s_init x) pins = Ok {| sold := x; sval := x' |}) ->
  node_ok veqb (scalar_node pre init prop) F.
Proof.
  intros H1 H2. constructor. exists (fun ins s => exists x, F ins = Some [x] /\ s = s_init x).
  split; [|split].
  - intros ins v Hf HF. destruct (H1 ins v Hf HF) as [x [-> E]]. split; [reflexivity|]. exists (s_init x). eauto.
  - intros ins s [x [HF ->]]. exists [x]. split; [exact HF|]. cbn [nd_out scalar_node]. unfold sout, still, s_diff, s_init.
    cbn [sold sval]. destruct (spec x x); [reflexivity|congruence].
  - intros ins s v pins v' [x [HF ->]] HF0 HP L HF'. cbn [nd_pre nd_prop nd_out nd_commit nd_revert nd_shape scalar_node] in *.
    destruct (pins_ok_olds pre ins pins L HP) as [G1 G2]. destruct (H1 _ v' G2 HF') as [x' [-> _]].
    assert (v = [x]) by congruence. subst v.
    exists {| sold := x; sval := x' |}. split; [now apply (H2 ins x pins x')|]. split; [|split].
    + eexists. split; [reflexivity|]. split; [reflexivity|]. apply sout_ok.
    + exists x'. split; [exact HF'|]. reflexivity.
    + exists (s_init x). split; [reflexivity|]. eauto.
Qed.

(** Map an update through [g]; the old value is left alone ([update] ignores it). *)
Definition umapi (g : nat -> V -> V) (u : update V) : update V :=
  Upd (uidx u) (uold u) (option_map (g (uidx u)) (uval u)).

Lemma umapi_step g l u l1 : replay1 l u = Some l1 ->
  spec_update1 (mapi g l) (umapi g u) = Some (mapi g l1).
Proof.
  intros H. apply (rp1_inv spec) in H. destruct H as [o v Eu En El|v Eu El|o Eu El].
  - rewrite Eu. unfold spec_update1, umapi. cbn [uidx uold uval change option_map].
    rewrite mapi_length. pose proof (nth_error_lt _ _ En).
    destruct (Nat.ltb_spec (uidx u) (length l)); [|lia]. rewrite El, mapi_lset. reflexivity.
  - rewrite Eu. unfold spec_update1, umapi. cbn [uidx uold uval placement option_map].
    rewrite mapi_length, Nat.eqb_refl, El, mapi_snoc. reflexivity.
  - rewrite Eu, El. unfold spec_update1, umapi. cbn [uidx uold uval removal option_map].
    rewrite mapi_length, app_length. cbn [length]. rewrite Nat.add_1_r, Nat.eqb_refl, mapi_snoc, removelast_last. reflexivity.
Qed.

Lemma umapi_steps g us : forall l l1, replay l us = Some l1 ->
  ofold spec_update1 (mapi g l) (map (umapi g) us) = Some (mapi g l1).
Proof.
  induction us as [|u us IH]; intros l l1 H.
  - rewrite rp_nil in H. injection H as <-. reflexivity.
  - destruct (rp_cons_inv _ _ _ _ H) as [l0 [H1 H2]]. cbn [map ofold].
    rewrite (umapi_step g _ _ _ H1). apply IH. exact H2.
Qed.

(** [a_update] is defined and correct whenever the specification is. *)
Lemma a_update_ok (c : list V) d us l : Inv c d -> ofold spec_update1 (abuf d) us = Some l ->
  exists d' b, a_update d us = Some (d', b) /\ Inv c d' /\ abuf d' = l.
Proof.
  intros I H. pose proof (a_step_defined spec vpad (OUpdate us) I) as D. cbn [spec_op a_step] in D.
  rewrite H in D. destruct (a_update d us) as [[d' b]|] eqn:E.
  - exists d', b. split; [reflexivity|].
    destruct (a_step_spec spec vpad (OUpdate us) I E) as [c' [S I']].
    cbn [spec_op] in S. rewrite H in S. injection S as <- <-. auto.
  - exfalso. apply (proj1 D); [discriminate|reflexivity].
Qed.

Lemma a_update_kinds us : forall (d d' : @adata V) b, a_update d us = Some (d', b) -> Forall is_change us ->
  Forall is_change (aupd d) -> Forall is_change (aupd d').
Proof.
  intros d d' b H. unfold a_update in H. destruct (ofold _ d us) as [d1|] eqn:E; [|discriminate].
  injection H as <- <-. revert d E. induction us as [|u us IH]; intros d E HC HD; cbn [ofold] in E.
  - injection E as <-. exact HD.
  - inversion HC as [|x y [C1 C2] HC']; subst. destruct (a_update1 d u) as [d0|] eqn:E1; [|discriminate].
    apply (IH d0 E HC'). unfold a_update1 in E1. destruct (uval u) as [v|]; [|congruence].
    destruct (uold u) as [o|]; [|congruence]. destruct (nth_error _ _); [|discriminate].
    injection E1 as <-. cbn [aupd]. apply Forall_app. split; [exact HD|]. repeat constructor; discriminate.
Qed.

Lemma umapi_change g us : Forall is_change us -> Forall is_change (map (umapi g) us).
Proof.
  intros H. induction H as [|u us [A B] H IH]; cbn [map]; constructor; auto.
  split; cbn [umapi uold uval]; auto. destruct (uval u); cbn; congruence.
Qed.

(** * Assignment *)
Lemma a_assign_ok (c : list V) d vs : Inv c d -> exists d' b, a_assign veqb d vs = (d', b) /\ Inv c d' /\ abuf d' = vs.
Proof.
  intros I. pose proof (a_assign_spec veqb spec vpad d vs) as S. destruct (a_assign veqb d vs) as [d' b].
  exists d', b. split; [reflexivity|]. destruct S as [A [B [us [C D]]]]. split; [|exact A].
  destruct I as [I1 I2]. split; [congruence|]. rewrite C, A. rewrite (rp_app _ _ _ _ I2). exact D.
Qed.

Lemma assign_overlap_changes bs : forall vs k, Forall is_change (snd (assign_overlap veqb k bs vs)).
Proof.
  induction bs as [|b bs IH]; intros [|v vs] k; cbn [assign_overlap snd]; try constructor.
  specialize (IH vs (S k)). destruct (assign_overlap veqb (S k) bs vs) as [r us]. cbn [snd] in *.
  destruct (veqb b v); cbn [snd]; auto. constructor; auto. split; discriminate.
Qed.

Lemma a_assign_kinds (d d' : @adata V) vs b : a_assign veqb d vs = (d', b) -> length vs = length (abuf d) ->
  Forall is_change (aupd d) -> Forall is_change (aupd d').
Proof.
  intros H L HD. unfold a_assign in H. pose proof (assign_overlap_changes (abuf d) vs 0) as C.
  destruct (assign_overlap veqb 0 (abuf d) vs) as [r us]. cbn [snd] in C.
  rewrite L, Nat.min_id in H. rewrite skipn_all in H. rewrite <- L, skipn_all in H.
  cbn [rev assign_removals assign_placements] in H. injection H as <- _. cbn [aupd].
  rewrite !app_nil_r. apply Forall_app. auto.
Qed.

(** * Untouched indices *)
Lemma replay_untouched us : forall l l1 i, replay l us = Some l1 ->
  ~ In i (map (@uidx V) us) -> nth_error l1 i = nth_error l i.
Proof.
  induction us as [|u us IH]; intros l l1 i H N.
  - rewrite rp_nil in H. injection H as <-. reflexivity.
  - destruct (rp_cons_inv _ _ _ _ H) as [l0 [H1 H2]]. cbn [map In] in N.
    rewrite (IH _ _ i H2) by tauto. apply (rp1_inv spec) in H1.
    destruct H1 as [o v Eu En El|v Eu El|o Eu El].
    + rewrite El. apply nth_error_lset_neq. tauto.
    + rewrite Eu in N. cbn in N. rewrite El.
      destruct (Nat.lt_ge_cases i (length l)); [now rewrite nth_error_app1|].
      rewrite (proj2 (nth_error_None l i)) by lia. apply nth_error_None. rewrite app_length; cbn; lia.
    + rewrite Eu in N. cbn in N. rewrite El.
      destruct (Nat.lt_ge_cases i (length l0)); [now rewrite nth_error_app1|].
      rewrite (proj2 (nth_error_None l0 i)) by lia. symmetry. apply nth_error_None. rewrite app_length; cbn; lia.
Qed.

Lemma replay_changes_length us : forall l l1, replay l us = Some l1 -> Forall is_change us ->
  length l1 = length l /\ Forall (fun u => uidx u < length l) us.
Proof.
  induction us as [|u us IH]; intros l l1 H HC.
  - rewrite rp_nil in H. injection H as <-. auto.
  - destruct (rp_cons_inv _ _ _ _ H) as [l0 [H1 H2]]. inversion HC as [|x y [C1 C2] HC']; subst.
    destruct (IH _ _ H2 HC') as [A B]. apply (rp1_inv spec) in H1.
    destruct H1 as [o v Eu En El|v Eu El|o Eu El].
    + rewrite El, lset_length in *. split; [exact A|]. constructor; [|exact B]. now apply nth_error_lt in En.
    + rewrite Eu in C1. cbn in C1. congruence.
    + rewrite Eu in C2. cbn in C2. congruence.
Qed.

(** Every index at which the arrays differ was mentioned. *)
Lemma replay_diff_in us l l1 i : replay l us = Some l1 -> nth_error l1 i <> nth_error l i ->
  In i (map (@uidx V) us).
Proof.
  intros H N. destruct (in_dec Nat.eq_dec i (map (@uidx V) us)) as [|n]; auto.
  exfalso. apply N. eapply replay_untouched; eauto.
Qed.

End Lib.
