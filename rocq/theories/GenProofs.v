(** The generators' models compute what they should. *)
From Verif Require Import Base Num SliceModel ShapeModel ShapeSpec SliceSpec StateDataModel NodeSpec BinaryModel BasicModel BasicSpec ViewModel ElemModel NaryModel
  ReduceModel BoundsModel PermModel AdvModel NarySpec ReduceSpec BinarySpec ElemSpec PermSpec ViewSpec AdvSpec ProposeSpec PyModel GenModel PySpec GenSpec PyProofs PyValues PyRules.
Set Implicit Arguments.

Definition nobody : nat -> Prop := fun _ => False.
Lemma nobody_open m : open_ nobody m.
Proof. intros x _ []. Qed.

Lemma runs_require_matrix r c (D : list (list num)) m (Q : Z * Z -> pym -> Prop) :
  1 <= r -> matrix r c D -> Forall nonnegative D -> Q (Z.of_nat r, Z.of_nat c) m -> runs (require_matrix D) m Q.
Proof.
  intros Hr [H1 H2] Hn HQ. unfold require_matrix. destruct D as [|row D']; [cbn in H1; lia|]. set (D := row :: D') in *.
  assert (Hrow : length row = c) by (now inversion H2). rewrite Hrow.
  assert (E1 : forallb (fun s => length s =? c) D = true).
  { apply forallb_forall. intros x Hx. rewrite Forall_forall in H2. apply Nat.eqb_eq. now apply H2. }
  assert (E2 : forallb (forallb (fun x => negb (qltb x 0%Qc))) D = true).
  { apply forallb_forall. intros x Hx. apply forallb_forall. intros y Hy. rewrite Forall_forall in Hn. specialize (Hn x Hx).
    unfold nonnegative in Hn. rewrite Forall_forall in Hn. specialize (Hn y Hy). destruct (qltb_spec y 0%Qc) as [H|]; [|reflexivity].
    exfalso. exact (Qclt_not_le _ _ H Hn). }
  rewrite E1, E2. apply runs_ret. unfold zlen. rewrite H1, Hrow. exact HQ.
Qed.
Lemma runs_require_square n (D : list (list num)) m (Q : Z -> pym -> Prop) :
  1 <= n -> matrix n n D -> Forall nonnegative D -> Q (Z.of_nat n) m -> runs (require_square D) m Q.
Proof.
  intros Hn HD H0 HQ. unfold require_square. apply runs_bind. eapply runs_require_matrix; eauto. cbv beta iota. rewrite Z.eqb_refl. now apply runs_ret.
Qed.

(** * Traveling salesperson *)
Lemma tsp_runs n (D : list (list num)) (p : list nat) dv :
  1 <= n -> (Z.of_nat (n * n) < 2147483648)%Z -> matrix n n D -> Forall nonnegative D -> length p = n -> Forall (fun i => i < n) p ->
  dv 0 = numbers p ->
  runs (traveling_salesperson D) no_model (fun x m => x = 0 /\ decision m 0 KList [Z.of_nat n] /\ p_cons m = [] /\ objective m dv (tour D p)).
Proof.
  intros Hn Hs HD H0 Hp Hlt Hdv.
  assert (Hsm : small (numbers p)) by (unfold small; rewrite numbers_length, Hp; nia).
  assert (Hmx := small_max Hsm). rewrite numbers_length in Hmx.
  unfold traveling_salesperson. apply runs_bind. eapply runs_require_square; eauto.
  apply runs_bind. unfold list_var. apply runs_emit_dec with (B := nobody) (dv := dv); [apply nobody_open|reflexivity|].
  intros cities m1 -> _ S1 F1. cbn [no_model p_syms length] in F1 |- *. rewrite Hdv in F1.
  apply runs_bind. eapply runs_constant with (dv := dv); [exact (steps_open S1)|]. intros d m2 _ _ S2 F2. advance S2.
  replace (Z.of_nat n) with (Z.of_nat (length (numbers p))) in F1 by (now rewrite numbers_length, Hp).
  apply runs_bind. eapply runs_slice; [exact O|exact F1|exact I|exact Hsm|]. intros a m3 ct3 S3 w3 F3. subst w3. advance S3.
  apply runs_bind. eapply runs_slice; [exact O|exact F1|exact I|exact Hsm|]. intros b m4 ct4 S4 w4 F4. subst w4. advance S4.
  cbn [value_or] in F3, F4. rewrite <- numbers_cut, numbers_length in F3, F4. rewrite cut_init in F3. rewrite cut_tail in F4 by exact Hmx.
  rewrite removelast_length in F3.
  apply runs_bind. eapply runs_gather2; [exact O|exact F2|exact I|exact HD|exact F3|exact F4| | | | |].
  { cbn; lia. } { now apply Forall_removelast. } { now apply Forall_tl. } { apply removelast_length. }
  intros it m5 S5 F5. advance S5.
  assert (Hpos : (0 < Z.of_nat (length (numbers p)))%Z) by (rewrite numbers_length; lia).
  apply runs_bind. eapply runs_int; [exact O|exact F1|exact I|exact Hsm|lia|]. intros a' m6 ct6 S6 F6. advance S6.
  apply runs_bind. eapply runs_int; [exact O|exact F1|exact I|exact Hsm|lia|]. intros b' m7 ct7 S7 F7. advance S7.
  assert (E6 : [nth (Z.to_nat (py_norm (Z.of_nat (length (numbers p))) (-1))) (numbers p) 0%Qc] = numbers [last p 0]).
  { unfold py_norm. cbn [Z.ltb Z.compare]. rewrite numbers_length. replace (Z.to_nat _) with (length p - 1) by lia.
    rewrite (nth_error_nth _ _ _ (numbers_nth p (j := length p - 1) ltac:(lia))). cbn. do 3 f_equal.
    clear. induction p as [|x l IH]; [reflexivity|]. cbn [length Nat.sub]. destruct l as [|y l]; [reflexivity|]. cbn [length Nat.sub nth] in IH |- *.
    rewrite Nat.sub_0_r in IH. exact IH. }
  assert (E7 : [nth (Z.to_nat (py_norm (Z.of_nat (length (numbers p))) 0)) (numbers p) 0%Qc] = numbers [hd 0 p]).
  { unfold py_norm. cbn [Z.ltb Z.compare]. change (Z.to_nat 0) with 0. rewrite (nth_error_nth _ _ _ (numbers_nth p (j := 0) ltac:(lia))).
    cbn. now destruct p. }
  rewrite E6 in F6. rewrite E7 in F7.
  assert (Hlast : last p 0 < n /\ hd 0 p < n).
  { destruct p as [|x l]; [cbn in Hp; lia|]. rewrite Forall_forall in Hlt. split; apply Hlt; [|now left].
    rewrite (app_removelast_last 0 (l := x :: l)) at 2 by discriminate. apply in_or_app. right. now left. }
  apply runs_bind. eapply runs_gather2; [exact O|exact F2|exact I|exact HD|exact F6|exact F7| | | | |].
  { cbn; lia. } { constructor; [tauto|constructor]. } { constructor; [tauto|constructor]. } { reflexivity. }
  intros rt m8 S8 F8. advance S8.
  apply runs_bind. eapply runs_sum; [exact O|exact F5|]. intros s1 m9 S9 F9. advance S9.
  apply runs_bind. eapply runs_sum; [exact O|exact F8|]. intros s2 m10 S10 F10. advance S10.
  apply runs_bind. eapply runs_scalars; [exact O|exact F9|exact F10|discriminate|discriminate|]. intros t m11 S11 F11. advance S11.
  apply runs_bind. eapply runs_minimize; [exact F11|reflexivity|]. apply runs_ret. split; [reflexivity|]. split.
  { destruct F1 as [[q E1] _]. rewrite numbers_length, Hp in E1. do 2 eexists. exact E1. }
  split.
  - repeat match goal with S : steps _ _ _ |- _ => destruct S as (_ & _ & ? & _) end. cbn in *. congruence.
  - eapply fact_objective. unfold bop_total in F11. cbn [bop_func] in F11. rewrite path_combine in F11. cbn in F11. rewrite Qcplus_0_r in F11. exact F11.
Qed.

(** * Quadratic assignment *)
Lemma qap_row (D : list (list num)) a (p : list nat) (row : list num) : length row = length p ->
  map (fun q => (fst q * snd q)%Qc) (combine row (map (fun j => entry D a j) p)) =
  map (fun j => (nth j row 0 * entry D a (nth j p O))%Qc) (seq 0 (length p)).
Proof.
  revert row; induction p as [|x p IH]; intros [|y row] H; try discriminate; [reflexivity|]. cbn [map combine fst snd length seq nth]. f_equal.
  rewrite <- seq_shift, map_map. cbn [nth]. apply IH. now injection H.
Qed.
Lemma qap_sum (D : list (list num)) (p q : list nat) (F : list (list num)) : length F = length q -> Forall (fun row => length row = length p) F ->
  qsum_of (map (fun q => (fst q * snd q)%Qc) (combine (concat F) (concat (map (fun i => map (fun j => entry D i j) p) q)))) =
  qsum_of (map (fun i => qsum_of (map (fun j => (entry F i j * entry D (nth i q O) (nth j p O))%Qc) (seq 0 (length p)))) (seq 0 (length q))).
Proof.
  revert q; induction F as [|row F IH]; intros [|a q] H HF; try discriminate; [reflexivity|]. inversion HF as [|r' F' Hr HF']; subst.
  cbn [concat map length seq qsum_of nth]. rewrite combine_app by (now rewrite map_length). rewrite map_app, qsum_app. f_equal.
  - f_equal. now apply qap_row.
  - rewrite IH by (auto; now injection H). rewrite <- seq_shift, map_map. reflexivity.
Qed.
Lemma qap_runs n (D F : list (list num)) (p : list nat) dv :
  1 <= n -> (Z.of_nat (n * n) < 2147483648)%Z -> matrix n n D -> matrix n n F -> Forall nonnegative D -> Forall nonnegative F ->
  length p = n -> Forall (fun i => i < n) p -> dv 0 = numbers p ->
  runs (quadratic_assignment D F) no_model (fun x m => x = 0 /\ decision m 0 KList [Z.of_nat n] /\ p_cons m = [] /\ objective m dv (assignment_cost n D F p)).
Proof.
  intros Hn Hs HD HF D0 F0 Hp Hlt Hdv.
  assert (Hn1 : (Z.of_nat n < 2147483648)%Z) by nia.
  unfold quadratic_assignment. apply runs_bind. eapply runs_require_square; [exact Hn|exact HD|exact D0|].
  apply runs_bind. eapply runs_require_square; [exact Hn|exact HF|exact F0|].
  apply runs_bind. unfold unless. rewrite Z.eqb_refl. apply runs_ret.
  apply runs_bind. unfold list_var. apply runs_emit_dec with (B := nobody) (dv := dv); [apply nobody_open|reflexivity|].
  intros cities m1 -> _ S1 F1. cbn [no_model p_syms length] in F1 |- *. rewrite Hdv in F1.
  apply runs_bind. eapply runs_constant with (dv := dv); [exact (steps_open S1)|]. intros d m2 _ _ S2 F2. advance S2.
  apply runs_bind. eapply runs_constant with (dv := dv); [exact O|]. intros f m3 _ _ S3 F3. advance S3.
  apply runs_bind. eapply runs_rows; [exact O|exact F2|exact I|exact HD|exact F1|cbn; lia|exact Hlt|]. intros r m4 S4 _ E4. advance S4. cbn [app] in E4.
  pose proof F2 as [[ps2 E2] _].
  apply runs_bind. unfold getitem. apply runs_bind. eapply runs_look; [exact E4|]. cbn [s_cls s_pred]. apply runs_bind. eapply runs_look; [exact E2|].
  cbn [s_cls s_shape full is_full]. rewrite Z.eqb_refl, Nat.eqb_refl. cbn [andb].
  eapply runs_permutation; [exact O|exact F2|exact F1|lia|nia| |].
  { rewrite Nat2Z.id. now apply perm_matrix. }
  intros g m5 S5 F5. advance S5.
  destruct HF as [HF1 HF2]. destruct HD as [HD1 HD2].
  assert (Ll : length (concat F) = n * n) by (now apply concat_length').
  apply runs_bind. eapply runs_same; [exact O|exact F3|exact F5|discriminate|discriminate| | | | |].
  { rewrite size2; nia. } { cbn. destruct (Z.ltb_spec (Z.of_nat n) 0); [lia|reflexivity]. }
  { rewrite Ll. cbn. lia. }
  { rewrite Ll. symmetry. apply concat_length'; [now rewrite map_length|]. apply Forall_forall. intros x Hx. apply in_map_iff in Hx as (i & <- & _). now rewrite map_length. }
  intros t m6 S6 F6. advance S6.
  apply runs_bind. eapply runs_sum; [exact O|exact F6|]. intros s m7 S7 F7. advance S7.
  apply runs_bind. eapply runs_minimize; [exact F7|reflexivity|]. apply runs_ret. split; [reflexivity|]. split.
  { destruct F1 as [[q E1] _]. do 2 eexists. exact E1. }
  split.
  - repeat match goal with S : steps _ _ _ |- _ => destruct S as (_ & _ & ? & _) end. cbn in *. congruence.
  - eapply fact_objective. unfold bop_total in F7. cbn [bop_func] in F7. rewrite qap_sum in F7 by (rewrite ?Hp; auto).
    unfold assignment_cost. rewrite Hp in F7. exact F7.
Qed.

(** * Knapsack *)
Lemma runs_require_vector w m (Q : unit -> pym -> Prop) : nonnegative w -> Q tt m -> runs (require_vector w) m Q.
Proof.
  intros H HQ. unfold require_vector, unless. replace (existsb _ w) with false; [now apply runs_ret|]. symmetry. apply not_true_is_false.
  intros E. apply existsb_exists in E as (x & Hx & E). unfold nonnegative in H. rewrite Forall_forall in H. specialize (H x Hx).
  destruct (qltb_spec x 0%Qc) as [L|]; [|discriminate]. exact (Qclt_not_le _ _ L H).
Qed.
Lemma total_opp v l : qsum_of (map (fun i => nth i (map Qcopp v) 0%Qc) l) = (- total v l)%Qc.
Proof.
  unfold total. induction l as [|i l IH]; [reflexivity|]. cbn [map qsum_of]. rewrite IH. change 0%Qc with (- 0)%Qc at 1. rewrite map_nth. ring.
Qed.
Lemma le_holds a b : bop_total BLe a b = b2q (qleb a b).
Proof. reflexivity. Qed.
Lemma qleb_true a b : qleb a b = true <-> (a <= b)%Qc.
Proof. destruct (qleb_spec a b) as [H|H]; split; auto; try discriminate; intros L; contradiction. Qed.
Lemma knapsack_runs n (values weights : list num) capacity (items : list nat) dv :
  length values = n -> length weights = n -> (Z.of_nat n < 2147483648)%Z -> nonnegative values -> nonnegative weights -> (0 < capacity)%Qc ->
  Forall (fun i => i < n) items -> dv 3 = numbers items ->
  runs (knapsack values weights capacity) no_model (fun x m => x = 3 /\ decision m 3 (KSet (Z.of_nat n)) [if Z.of_nat n =? 0 then 0 else -1]%Z /\ objective m dv (- total values items)%Qc /\
    feasible_iff m dv (total weights items <= capacity)%Qc).
Proof.
  intros Hv Hw Hs V0 W0 Hc Hlt Hdv.
  unfold knapsack. apply runs_bind. apply runs_require_vector; [exact W0|]. apply runs_bind. apply runs_require_vector; [exact V0|].
  unfold zlen. rewrite Hv, Hw, Z.eqb_refl. apply runs_bind. apply runs_ret.
  apply runs_bind. unfold unless. replace (qleb capacity 0%Qc) with false by (destruct (qleb_spec capacity 0%Qc) as [L|]; [exfalso; exact (Qclt_not_le _ _ Hc L)|reflexivity]).
  apply runs_ret.
  apply runs_bind. eapply runs_constant with (dv := dv) (B := nobody); [apply nobody_open|]. intros w m1 _ L1 S1 F1. advance S1.
  apply runs_bind. eapply runs_constant with (dv := dv); [exact O|]. intros v m2 _ L2 S2 F2. advance S2.
  apply runs_bind. eapply runs_constant with (dv := dv); [exact O|]. intros c m3 _ L3 S3 F3. advance S3.
  apply runs_bind. unfold set_var. apply runs_emit_dec with (B := nobody) (dv := dv); [exact O|reflexivity|].
  intros it m4 Hit _ S4 F4. advance S4. assert (it = 3) as ->. { rewrite Hit, L3, L2, L1. reflexivity. } rewrite Hdv in F4.
  rewrite <- Hw in F1. apply runs_bind. eapply runs_gather_item; [exact O|exact F1|exact I|exact F4|cbn; lia|now rewrite Hw|].
  intros a m5 S5 F5. advance S5.
  apply runs_bind. eapply runs_sum; [exact O|exact F5|]. intros s m6 S6 F6. advance S6.
  apply runs_bind. eapply runs_scalars; [exact O|exact F6|exact F3|discriminate|discriminate|]. intros k m7 S7 F7. advance S7.
  apply runs_bind. eapply runs_constrain; [exact O|exact F7|reflexivity|]. intros m8 G8. grown G8.
  replace (Z.of_nat n) with (Z.of_nat (length (map Qcopp values))) in F2 by (now rewrite map_length, Hv).
  apply runs_bind. eapply runs_gather_item; [exact O|exact F2|exact I|exact F4|cbn; lia|now rewrite map_length, Hv|].
  intros b m9 S9 F9. advance S9.
  apply runs_bind. eapply runs_sum; [exact O|exact F9|]. intros t m10 S10 F10. advance S10.
  apply runs_bind. eapply runs_minimize; [exact F10|reflexivity|]. apply runs_ret. split; [reflexivity|]. split.
  { destruct F4 as [[q E1] _]. do 2 eexists. exact E1. }
  split.
  - eapply fact_objective. rewrite total_opp in F10. exact F10.
  - assert (E : p_cons m10 = [k]).
    { destruct G8 as (_ & _ & E8 & _). repeat match goal with S : steps _ _ _ |- _ => destruct S as (_ & _ & ? & _) end.
      repeat match goal with H : p_cons ?m = _ |- context [p_cons ?m] => rewrite H end. reflexivity. }
    rewrite E. eapply holds_feasible with (bs := [qleb (total weights items) capacity]).
    + constructor; [|constructor]. rewrite le_holds in F7. do 3 eexists. exact F7.
    + rewrite <- qleb_true. split; [intros H; now inversion H|]. intros H. constructor; auto.
Qed.
