(** Whole models: quadratic assignment and knapsack. *)
From Coq Require Import Relations Permutation.
From Verif Require Import Base Num SliceModel ShapeModel ShapeSpec SliceSpec StateDataModel NodeSpec BinaryModel BasicModel BasicSpec ViewModel ElemModel NaryModel
  ReduceModel BoundsModel PermModel AdvModel AdvSpec AdvSpec2 GraphModel GraphSpec ProposeModel ProposeSpec PyModel GenModel PySpec GenSpec PyProofs PyValues PyRules GenProofs GenProofs4 GenProofs6 GenProofs7
  RunModel RunSpec RunProofs RunProofs2 RunProofs3 RunProofs4.
Set Implicit Arguments.
Local Open Scope Z_scope.

Definition qap_pym (n : nat) (D F : list (list num)) : pym := let N := Z.of_nat n in
  Pym [ Sym KList [] [N] true; Sym (KConst (concat D)) [] [N; N] true; Sym (KConst (concat F)) [] [N; N] true;
        Sym (KAdv [true; false]) [1; 0]%nat [N; N] true; Sym KPerm [1; 0]%nat [N; N] true;
        Sym (KBin BMul) [2; 4]%nat [N; N] true; Sym (KRed RAdd) [5%nat] [] true ] (Some 6%nat) [].

Lemma perm_new_ok n : (1 <= n)%nat -> Z.of_nat (n * n) < 2147483648 -> perm_new true [Z.of_nat n; Z.of_nat n] [Z.of_nat n] true (zq (-1)) = Ok tt.
Proof.
  intros Hn Hs. unfold perm_new. cbn [negb combine forallb fst snd]. rewrite Z.eqb_refl. cbn [andb negb dynamic length]. destruct (Z.ltb_spec (Z.of_nat n) 0); [lia|]. change (1 =? 1)%nat with true.
  rewrite size1, Z.eqb_refl by nia. cbn [negb]. destruct (qltb_spec (zq (shape_to_size [Z.of_nat n; Z.of_nat n])) (zq (-1))) as [H1|]; [|reflexivity]. rewrite size2 in H1 by nia. apply (proj1 (zq_lt _ _)) in H1. nia.
Qed.
Lemma qap_builds n D F : (1 <= n)%nat -> Z.of_nat (n * n) < 2147483648 -> matrix n n D -> matrix n n F -> Forall nonnegative D -> Forall nonnegative F ->
  quadratic_assignment D F no_model = Ok (0%nat, qap_pym n D F).
Proof.
  intros Hn Hs HD HF D0 F0. unfold quadratic_assignment. eapply bind_ok; [exact (require_square_ok no_model Hn HD D0)|]. eapply bind_ok; [exact (require_square_ok no_model Hn HF F0)|].
  rewrite Z.eqb_refl. eapply bind_ok; [reflexivity|]. eapply bind_ok; [reflexivity|]. eapply bind_ok; [reflexivity|]. eapply bind_ok; [reflexivity|]. cbn [emit no_model p_syms p_obj p_cons length app].
  destruct (@adv_new_rows (Z.of_nat n) (Z.of_nat n) [Z.of_nat n]) as (r & A & B & C); [lia|cbn; lia|].
  eapply bind_ok. { erewrite adv_step; [|reflexivity|exact I|reflexivity|reflexivity|reflexivity|eexists; reflexivity|reflexivity|exact A]. rewrite B, C. reflexivity. }
  eapply bind_ok. { unfold getitem. eapply bind_ok; [reflexivity|]. cbn [s_cls s_pred]. eapply bind_ok; [reflexivity|]. cbn [s_cls s_shape full is_full]. rewrite Z.eqb_refl. cbn [Nat.eqb andb].
    unfold permutation. eapply bind_ok; [reflexivity|]. eapply bind_ok; [reflexivity|]. cbn [s_cls s_shape]. unfold lift. rewrite perm_new_ok by assumption. eapply bind_ok; [reflexivity|]. reflexivity. }
  eapply bind_ok. { unfold binop. eapply bind_ok; [reflexivity|]. eapply bind_ok; [reflexivity|]. cbn [s_shape]. unfold lift. rewrite bin_new_same by (rewrite size2; nia). eapply bind_ok; reflexivity. }
  reflexivity.
Qed.
Lemma qap_sound strict dbg n D F : (1 <= n)%nat -> 8 * Z.of_nat (n * n) < 2147483648 -> matrix n n D -> matrix n n F -> all_sound strict dbg (qap_pym n D F).
Proof.
  intros Hn Hs HD HF. assert (Hb : 0 <= Z.of_nat n < 2147483648) by nia. assert (Hd : dynamic [Z.of_nat n] = false) by (cbn; lia). assert (Hd2 : dynamic [Z.of_nat n; Z.of_nat n] = false) by (cbn; lia).
  destruct (@adv_new_rows_any dbg (Z.of_nat n) (Z.of_nat n) [Z.of_nat n]) as (r & A & B & I & C); [lia|cbn; lia|].
  assert (Hpre : forall l : list nat, forallb (fun y => y <? 7)%nat l = true -> Forall (fun y => (y < length (p_syms (qap_pym n D F)))%nat) l).
  { intros l H. apply Forall_forall. intros y Hy. rewrite forallb_forall in H. apply Nat.ltb_lt. now apply H. }
  unfold all_sound. cbn [qap_pym p_syms].
  repeat apply Forall_cons; try apply Forall_nil; (split; [apply Hpre; reflexivity|]; cbn [s_cls s_pred s_shape]; split; [first [apply wf_shape0|apply wf_shape1; lia|apply wf_shape2; nia]|]).
  - now exists n.
  - now apply fits_concat.
  - now apply fits_concat.
  - split; [exact Hd2|]. exists r. split; [exact A|]. split; [exact C|]. split; [reflexivity|]. rewrite I. split; [repeat constructor|]. split; [now left|]. split; [intros _; exact Hd|]. repeat constructor; exact Hd.
  - exists n. repeat (split; [first [assumption|reflexivity]|]). exact Logic.I.
  - split; [discriminate|]. split; [discriminate|]. apply bin_new_same. change (0 <= shape_to_size [Z.of_nat n; Z.of_nat n]). rewrite size2; nia.
  - split; [reflexivity|]. eexists. reflexivity.
Qed.
Lemma small8 n : 8 * Z.of_nat (n * n) < 2147483648 -> Z.of_nat (n * n) < 2147483648.
Proof. lia. Qed.
Lemma qap_total n D F : (1 <= n)%nat -> Z.of_nat (n * n) < 2147483648 -> matrix n n D -> matrix n n F -> Forall nonnegative D -> Forall nonnegative F -> total (qap_pym n D F).
Proof.
  intros Hn Hs HD HF D0 F0 dv Hd. destruct (qap_model Hn Hs HD HF D0 F0) as (m & E & _ & _ & _ & H). rewrite (qap_builds Hn Hs HD HF D0 F0) in E. injection E as <-.
  destruct (proj1 (Hd 0%nat _ eq_refl) eq_refl) as (p & Hp & Ep). cbn [s_shape hd] in Hp. rewrite Nat2Z.id in Hp. destruct (perm_ok _ Hp) as [Lp Fp].
  apply (@cover_total _ [6; 3]%nat); [reflexivity|]. intros x [<-|[<-|[]]].
  - destruct (H dv p Hp Ep) as (x & [= <-] & Hy). eauto.
  - exists (concat (map (fun i => nth i D []) p)). apply y_op with (Sym (KAdv [true; false]) [1; 0]%nat [Z.of_nat n; Z.of_nat n] true) [concat D; numbers p]; [reflexivity|reflexivity| |].
    + constructor; [|constructor; [|constructor]].
      * eapply y_op; [reflexivity|reflexivity|constructor|reflexivity].
      * rewrite <- Ep. eapply y_dec; reflexivity.
    + cbn [s_cls s_pred]. unfold shapes_of. cbn [map]. unfold meaning. change (shape_at _ 1) with [Z.of_nat n; Z.of_nat n]. unfold dynamic. destruct (Z.ltb_spec (Z.of_nat n) 0); [lia|]. now apply adv_rows.
Qed.
Theorem qap_run strict dbg n D F : (1 <= n)%nat -> 8 * Z.of_nat (n * n) < 2147483648 -> matrix n n D -> matrix n n F -> Forall nonnegative D -> Forall nonnegative F ->
  exists m g obj, quadratic_assignment D F no_model = Ok (0%nat, m) /\ history (build m) = Ok g /\ p_obj m = Some obj /\ faithful strict dbg m g /\
    forall st, running strict dbg m g st -> exists p, Permutation p (seq 0 n) /\ pin_of (nodes strict dbg m) g st 0%nat = Some (still (numbers p)) /\
      pin_of (nodes strict dbg m) g st obj = Some (still [assignment_cost n D F p]).
Proof.
  intros Hn H8 HD HF D0 F0. pose proof (small8 _ H8) as Hs. destruct (run_of (@qap_sound strict dbg n D F Hn H8 HD HF) (orderb_ok (qap_pym n D F) eq_refl) (qap_total Hn Hs HD HF D0 F0)) as (g & E & L & Fa).
  destruct (qap_model Hn Hs HD HF D0 F0) as (m & E' & _ & (ps & ct & Dc) & _ & H). rewrite (qap_builds Hn Hs HD HF D0 F0) in E'. injection E' as Em.
  assert (O : p_obj m = Some 6%nat) by (rewrite <- Em; reflexivity). pose proof (qap_builds Hn Hs HD HF D0 F0) as Eb. fold (qap_pym n D F) in Em. rewrite Em in *. clear Em L.
  exists m, g, 6%nat. split; [exact Eb|]. split; [exact E|]. split; [exact O|]. split; [exact Fa|]. intros st Hr.
  destruct Fa as (_ & Fa & _). destruct (Fa st Hr) as (dv & Hd & Sh). destruct (proj1 (Hd 0%nat _ Dc) eq_refl) as (p & Hp & Ep). cbn [s_shape hd] in Hp. rewrite Nat2Z.id in Hp.
  exists p. split; [exact Hp|]. split.
  - apply (shown_value Sh). rewrite <- Ep. apply y_dec with (1 := Dc). reflexivity.
  - destruct (H dv p Hp Ep) as (x & Hx & Hy). assert (x = 6%nat) by congruence. subst x. apply (shown_value Sh). exact Hy.
Qed.

(** * Knapsack *)
Definition knap_pym (n : nat) (values weights : list num) (capacity : num) : pym := let N := Z.of_nat n in let S := [if N =? 0 then 0 else -1] in
  Pym [ Sym (KConst weights) [] [N] true; Sym (KConst (map Qcopp values)) [] [N] true; Sym (KConst [capacity]) [] [] true; Sym (KSet N) [] S true;
        Sym (KAdv [true]) [0; 3]%nat S true; Sym (KRed RAdd) [4%nat] [] true; Sym (KBin BLe) [5; 2]%nat [] true;
        Sym (KAdv [true]) [1; 3]%nat S true; Sym (KRed RAdd) [7%nat] [] true ] (Some 8%nat) [6%nat].
Lemma require_vector_ok w m : nonnegative w -> require_vector w m = Ok (tt, m).
Proof. intros H. destruct (@runs_require_vector w m (fun a m' => a = tt /\ m' = m) H) as (a & m' & E & -> & ->); [auto|exact E]. Qed.
Lemma knap_builds n values weights capacity : length values = n -> length weights = n -> nonnegative values -> nonnegative weights -> (0 < capacity)%Qc ->
  knapsack values weights capacity no_model = Ok (3%nat, knap_pym n values weights capacity).
Proof.
  intros Hv Hw V0 W0 Hc. unfold knapsack. eapply bind_ok; [exact (require_vector_ok no_model W0)|]. eapply bind_ok; [exact (require_vector_ok no_model V0)|].
  unfold zlen. rewrite Hv, Hw, Z.eqb_refl. eapply bind_ok; [reflexivity|]. unfold unless. replace (qleb capacity 0%Qc) with false by (destruct (qleb_spec capacity 0%Qc) as [L|]; [exfalso; exact (Qclt_not_le _ _ Hc L)|reflexivity]).
  eapply bind_ok; [reflexivity|]. eapply bind_ok; [reflexivity|]. eapply bind_ok; [reflexivity|]. eapply bind_ok; [reflexivity|]. eapply bind_ok; [reflexivity|]. cbn [emit no_model p_syms p_obj p_cons length app].
  destruct (@adv_new1 (Z.of_nat n) [if Z.of_nat n =? 0 then 0 else -1]) as (r & A & B & C); [lia|cbn; lia|].
  eapply bind_ok. { erewrite adv_step; [|reflexivity|exact I|reflexivity|reflexivity|reflexivity|eexists; reflexivity|reflexivity|exact A]. rewrite B, C. reflexivity. }
  eapply bind_ok; [reflexivity|]. eapply bind_ok; [reflexivity|]. eapply bind_ok; [reflexivity|].
  eapply bind_ok. { erewrite adv_step; [|reflexivity|exact I|reflexivity|reflexivity|reflexivity|eexists; reflexivity|reflexivity|exact A]. rewrite B, C. reflexivity. }
  reflexivity.
Qed.
Lemma knap_sound dbg n values weights capacity : length values = n -> length weights = n -> Z.of_nat n < 2147483648 -> all_sound false dbg (knap_pym n values weights capacity).
Proof.
  intros Hv Hw Hs. set (S := [if Z.of_nat n =? 0 then 0 else -1]).
  destruct (@adv_new1_any dbg (Z.of_nat n) S) as (r & A & B & I & C); [lia|cbn; lia|].
  assert (Hd : dynamic [Z.of_nat n] = false) by (cbn; lia). assert (HS : wf_shape S) by (unfold S; split; [constructor|]; cbn; destruct (Z.of_nat n =? 0); lia).
  assert (Hpre : forall l : list nat, forallb (fun y => y <? 9)%nat l = true -> Forall (fun y => (y < length (p_syms (knap_pym n values weights capacity)))%nat) l).
  { intros l H. apply Forall_forall. intros y Hy. rewrite forallb_forall in H. apply Nat.ltb_lt. now apply H. }
  assert (Hk : forall w : list num, length w = n -> fits [Z.of_nat n] w) by (intros w Hl; unfold fits, fits_len; rewrite Hd, prod1, Hl; reflexivity).
  unfold all_sound. cbn [knap_pym p_syms]. fold S.
  repeat apply Forall_cons; try apply Forall_nil; (split; [apply Hpre; reflexivity|]; cbn [s_cls s_pred s_shape]; split; [first [exact HS|apply wf_shape0|apply wf_shape1; lia]|]).
  - now apply Hk.
  - apply Hk. now rewrite map_length.
  - reflexivity.
  - split; [lia|reflexivity].
  - split; [exact Hd|]. exists r. split; [exact A|]. split; [exact C|]. split; [reflexivity|]. rewrite I. split; [repeat constructor|]. split; [now left|]. split; [discriminate|]. constructor; [right; left; eexists; split; reflexivity|constructor].
  - split; [reflexivity|]. eexists. reflexivity.
  - split; [discriminate|]. split; [discriminate|]. reflexivity.
  - split; [exact Hd|]. exists r. split; [exact A|]. split; [exact C|]. split; [reflexivity|]. rewrite I. split; [repeat constructor|]. split; [now left|]. split; [discriminate|]. constructor; [right; left; eexists; split; reflexivity|constructor].
  - split; [reflexivity|]. eexists. reflexivity.
Qed.
Lemma knap_total n values weights capacity : length values = n -> length weights = n -> Z.of_nat n < 2147483648 -> nonnegative values -> nonnegative weights -> (0 < capacity)%Qc ->
  RunSpec.total (knap_pym n values weights capacity).
Proof.
  intros Hv Hw Hs V0 W0 Hc dv Hd. destruct (knapsack_model Hv Hw Hs V0 W0 Hc) as (m & E & _ & _ & H). rewrite (knap_builds Hv Hw V0 W0 Hc) in E. injection E as <-.
  destruct (proj1 (Hd 3%nat _ eq_refl) eq_refl) as (p & Np & Fp & Ep). rewrite Nat2Z.id in Fp. destruct (H dv p Np Fp Ep) as [(x & [= <-] & Hy) (bs & Hb & _)].
  apply (@cover_total _ [8; 6]%nat); [reflexivity|]. intros x [<-|[<-|[]]]; [eauto|]. inversion Hb as [|? ? ? ? Hb1]; subst. eauto.
Qed.
Theorem knapsack_run dbg n values weights capacity : length values = n -> length weights = n -> Z.of_nat n < 2147483648 -> nonnegative values -> nonnegative weights -> (0 < capacity)%Qc ->
  exists m g obj con, knapsack values weights capacity no_model = Ok (3%nat, m) /\ history (build m) = Ok g /\ p_obj m = Some obj /\ p_cons m = [con] /\ faithful false dbg m g /\
    forall st, running false dbg m g st -> exists items b, NoDup items /\ Forall (fun i => (i < n)%nat) items /\
      pin_of (nodes false dbg m) g st 3%nat = Some (still (numbers items)) /\
      pin_of (nodes false dbg m) g st obj = Some (still [(- GenSpec.total values items)%Qc]) /\
      pin_of (nodes false dbg m) g st con = Some (still [b2q b]) /\ (b = true <-> (GenSpec.total weights items <= capacity)%Qc).
Proof.
  intros Hv Hw Hs V0 W0 Hc. destruct (run_of (@knap_sound dbg n values weights capacity Hv Hw Hs) (orderb_ok (knap_pym n values weights capacity) eq_refl) (knap_total Hv Hw Hs V0 W0 Hc)) as (g & E & L & Fa).
  destruct (knapsack_model Hv Hw Hs V0 W0 Hc) as (m & E' & _ & (ps & ct & Dc) & H). rewrite (knap_builds Hv Hw V0 W0 Hc) in E'. injection E' as Em.
  assert (O : p_obj m = Some 8%nat /\ p_cons m = [6%nat]) by (rewrite <- Em; split; reflexivity). pose proof (knap_builds Hv Hw V0 W0 Hc) as Eb. fold (knap_pym n values weights capacity) in Em. rewrite Em in *. clear Em L.
  exists m, g, 8%nat, 6%nat. split; [exact Eb|]. split; [exact E|]. split; [apply O|]. split; [apply O|]. split; [exact Fa|]. intros st Hr.
  destruct Fa as (_ & Fa & _). destruct (Fa st Hr) as (dv & Hd & Sh). destruct (proj1 (Hd 3%nat _ Dc) eq_refl) as (p & Np & Fp & Ep). rewrite Nat2Z.id in Fp.
  destruct (H dv p Np Fp Ep) as [(x & Hx & Hy) (bs & Hb & Hf)]. assert (x = 8%nat) by (destruct O; congruence). subst x. rewrite (proj2 O) in Hb. inversion Hb as [|? b ? bs' Hb1 Hb2]; subst. inversion Hb2; subst.
  exists p, b. split; [exact Np|]. split; [exact Fp|]. split; [|split; [|split]].
  - apply (shown_value Sh). rewrite <- Ep. apply y_dec with (1 := Dc). reflexivity.
  - apply (shown_value Sh). exact Hy.
  - apply (shown_value Sh). exact Hb1.
  - rewrite <- Hf. split; [intros ->; repeat constructor|intros Hq; now inversion Hq].
Qed.
