(** Vehicle routing: the generator's model computes what it should. *)
From Verif Require Import Base Num SliceModel ShapeModel ShapeSpec SliceSpec StateDataModel NodeSpec BinaryModel BasicModel BasicSpec ViewModel ElemModel NaryModel
  ReduceModel BoundsModel PermModel AdvModel NarySpec ReduceSpec BinarySpec ElemSpec PermSpec ViewSpec AdvSpec ProposeSpec PyModel GenModel PySpec GenSpec PyProofs PyValues PyRules GenProofs GenProofs2.
Set Implicit Arguments.

(** The three costs of a route. *)
Definition costs_of (out back : list num) (D : list (list num)) (r : list nat) : list num :=
  [ qsum_of (map (fun i => nth i out 0%Qc) (firstn 1 r));
    qsum_of (map (fun i => nth i back 0%Qc) (match r with [] => [] | _ => [last r 0] end));
    path D r ].
Lemma costs_route out back D r : qsum_of (costs_of out back D r) = route out back D r.
Proof. unfold costs_of, route. destruct r as [|a r]; cbn [firstn map qsum_of]; [cbn; ring|]. ring. Qed.
Lemma Forall_firstn {A} (P : A -> Prop) k l : Forall P l -> Forall P (firstn k l).
Proof. intros H. apply Forall_forall. intros x Hx. rewrite Forall_forall in H. apply H. rewrite <- (firstn_skipn k l). apply in_or_app. now left. Qed.
Lemma Forall_last (P : nat -> Prop) l : Forall P l -> Forall P (match l with [] => [] | _ => [last l 0] end).
Proof.
  intros H. destruct l as [|a l]; [constructor|]. constructor; [|constructor]. rewrite Forall_forall in H. apply H.
  rewrite (app_removelast_last 0 (l := a :: l)) at 2 by discriminate. apply in_or_app. right. now left.
Qed.

Section Routing.
Variables (demand : list num) (capacity : num) (D : list (list num)) (out back : list num) (routes : list (list nat)) (dv : nat -> list num).
Let n := length demand.
Let k := length routes.
Hypothesis Hk : 1 <= k.
Hypothesis Hs : (Z.of_nat n < 2147483648)%Z.
Hypothesis HD : matrix n n D.
Hypothesis Ho : length out = n.
Hypothesis Hb : length back = n.
Hypothesis Hd : Forall (fun x => x <> 0%Qc) demand.
Hypothesis Hr : Forall (fun r => length r <= n /\ Forall (fun i => i < n) r) routes.
Hypothesis Hdv : forall i, i < k -> dv (6 + i) = numbers (nth i routes []).

Lemma cvrp_core_runs :
  runs (cvrp_core demand k capacity D out back) no_model (fun r m => r = (5, seq 6 k) /\ (forall i, i < k -> decision m (6 + i) (KListOf 5 (Z.of_nat n) k i) [-1]%Z) /\
    objective m dv (qsum_of (map (route out back D) routes)) /\ feasible_iff m dv (Forall (fun r => total demand r <= capacity)%Qc routes)).
Proof.
  unfold cvrp_core, zlen. fold n.
  apply runs_bind. unfold unless at 1. replace (existsb _ demand) with false.
  2:{ symmetry. apply not_true_is_false. intros E. apply existsb_exists in E as (w & H1 & H2). rewrite Forall_forall in Hd. specialize (Hd w H1).
      destruct (qeqb_spec w 0%Qc); [contradiction|discriminate]. }
  apply runs_ret.
  apply runs_bind. eapply runs_constant with (dv := dv) (B := nobody); [apply nobody_open|]. intros cd m1 _ L1 S1 F1. advance S1.
  apply runs_bind. eapply runs_constant with (dv := dv); [exact O|]. intros dd m2 _ L2 S2 F2. advance S2.
  apply runs_bind. eapply runs_constant with (dv := dv); [exact O|]. intros dr m3 _ L3 S3 F3. advance S3.
  apply runs_bind. eapply runs_constant with (dv := dv); [exact O|]. intros dem m4 _ L4 S4 F4. advance S4.
  apply runs_bind. eapply runs_constant with (dv := dv); [exact O|]. intros cap m5 _ L5 S5 F5. advance S5.
  unfold disjoint_lists. apply runs_bind. apply runs_bind. eapply runs_emit_plain; [exact O|]. intros main m6 -> L6 S6. advance S6.
  apply runs_bind. eapply runs_parts with (dv := dv); [exact O|reflexivity|]. intros m7 L7 S7 F7. advance S7. apply runs_ret.
  rewrite L6, L5, L4, L3, L2, L1 in *. cbn [no_model p_syms length] in *.
  assert (Fr : forall i, i < k -> fact nobody m7 dv (6 + i) (KListOf 5 (Z.of_nat n) k i) [-1]%Z true (numbers (nth i routes []))).
  { intros i Hi. specialize (F7 i Hi). rewrite Hdv in F7 by exact Hi. exact F7. }
  apply runs_bind.
  apply runs_pfor with (I := fun done cs m' => exists ks, grows nobody ks m7 m' /\
    Forall2 (holds nobody m' dv) ks (map (fun r => qleb (total demand r) capacity) (firstn (length done) routes)) /\
    Forall (fun x => shape_at m' x = []) cs /\
    Forall2 (yp nobody m' dv) cs (map (fun v => [v]) (concat (map (costs_of out back D) (firstn (length done) routes))))).
  - exists []. split; [now apply grows_refl|]. split; [constructor|]. split; constructor.
  - intros done x todo cs m E (ks & G & HF & Hsh & HC). apply seq_mid in E as [-> Hi]. pose proof (Fr _ Hi) as F. clear F7 Fr. grown G.
    set (r := nth (length done) routes []) in *.
    assert (Hr' : length r <= n /\ Forall (fun i => i < n) r) by (rewrite Forall_forall in Hr; apply Hr; apply nth_In; exact Hi).
    destruct Hr' as [Hrl Hrn].
    assert (Hsm : small (numbers r)) by (unfold small; rewrite numbers_length; lia).
    assert (Hmx := small_max Hsm). rewrite numbers_length in Hmx.
    pose proof F2 as F2'. rewrite <- Ho in F2'. pose proof F3 as F3'. rewrite <- Hb in F3'. clear F2 F3.
    apply runs_bind. eapply runs_slice_dyn; [exact O|exact F|exact I|exact Hsm|]. intros a1 n1 c1 T1 A1. advance T1.
    cbn [value_or] in A1. rewrite <- numbers_cut, cut_first in A1.
    apply runs_bind. eapply runs_gather_item; [exact O|exact F2'|exact I|exact A1|cbn; lia|rewrite Ho; now apply Forall_firstn|]. intros a2 n2 T2 A2. advance T2.
    apply runs_bind. eapply runs_sum; [exact O|exact A2|]. intros s1 n3 T3 A3. advance T3.
    apply runs_bind. eapply runs_slice_dyn; [exact O|exact F|exact I|exact Hsm|]. intros a4 n4 c4 T4 A4. advance T4.
    cbn [value_or] in A4. rewrite <- numbers_cut, (@cut_last _ r 0) in A4 by exact Hmx.
    apply runs_bind. eapply runs_gather_item; [exact O|exact F3'|exact I|exact A4|cbn; lia|rewrite Hb; now apply Forall_last|]. intros a5 n5 T5 A5. advance T5.
    apply runs_bind. eapply runs_sum; [exact O|exact A5|]. intros s2 n6 T6 A6. advance T6.
    apply runs_bind. eapply runs_slice_dyn; [exact O|exact F|exact I|exact Hsm|]. intros a7 n7 c7 T7 A7. advance T7.
    cbn [value_or] in A7. rewrite <- numbers_cut, cut_init in A7.
    apply runs_bind. eapply runs_slice_dyn; [exact O|exact F|exact I|exact Hsm|]. intros a8 n8 c8 T8 A8. advance T8.
    cbn [value_or] in A8. rewrite <- numbers_cut, cut_tail in A8 by exact Hmx.
    apply runs_bind. eapply runs_gather2; [exact O|exact F1|exact I|exact HD|exact A7|exact A8| | | | |].
    { cbn; lia. } { now apply Forall_removelast. } { now apply Forall_tl. } { apply removelast_length. }
    intros a9 n9 T9 A9. advance T9.
    apply runs_bind. eapply runs_sum; [exact O|exact A9|]. intros s3 n10 T10 A10. advance T10. rewrite path_combine in A10.
    apply runs_bind. eapply runs_gather_item; [exact O|exact F4|exact I|exact F|cbn; lia|exact Hrn|]. intros a11 n11 T11 A11. advance T11.
    apply runs_bind. eapply runs_sum; [exact O|exact A11|]. intros s4 n12 T12 A12. advance T12.
    apply runs_bind. eapply runs_scalars; [exact O|exact A12|exact F5|discriminate|discriminate|]. intros le n13 T13 A13. advance T13.
    apply runs_bind. eapply runs_constrain; [exact O|exact A13|reflexivity|]. intros n14 G14. grown G14.
    apply runs_ret.
    assert (K : steps nobody m n13).
    { exact (steps_trans T1 (steps_trans T2 (steps_trans T3 (steps_trans T4 (steps_trans T5 (steps_trans T6 (steps_trans T7 (steps_trans T8
        (steps_trans T9 (steps_trans T10 (steps_trans T11 (steps_trans T12 T13)))))))))))). }
    assert (KK : keeps nobody m n14) by exact (keeps_trans (steps_keeps K) (proj1 G14)).
    exists (ks ++ [le]). split; [exact (grows_trans (grows_step G K) G14)|].
    rewrite app_length. cbn [length]. replace (length done + 1) with (S (length done)) by lia. rewrite (@firstn_snoc _ routes (length done) []) by exact Hi.
    fold r. rewrite !map_app, concat_app, map_app. cbn [map concat]. rewrite app_nil_r. split; [|split].
    + apply Forall2_app.
      * eapply Forall2_imp; [|exact HF]. intros y b. now apply holds_keeps.
      * constructor; [|constructor]. do 3 eexists. rewrite le_holds in A13. exact A13.
    + apply Forall_app. split.
      * apply Forall_forall. intros y Hy. rewrite Forall_forall in Hsh. specialize (Hsh y Hy).
        assert (exists s, nth_error (p_syms m) y = Some s) as [s Es].
        { pose proof (yp_nodes HC) as N. rewrite Forall_forall in N. now apply N. }
        rewrite (shape_at_keeps y KK Es). exact Hsh.
      * constructor; [exact (fact_shape A3)|]. constructor; [exact (fact_shape A6)|]. constructor; [exact (fact_shape A10)|constructor].
    + apply Forall2_app.
      * eapply Forall2_imp; [|exact HC]. intros y v. now apply yp_keeps.
      * unfold costs_of. cbn [map]. constructor; [now destruct A3 as [_ [_ Y]]|]. constructor; [now destruct A6 as [_ [_ Y]]|].
        constructor; [now destruct A10 as [_ [_ Y]]|constructor].
  - intros cs m8 (ks & G & HF & Hsh & HC). rewrite seq_length in *. unfold k in HF, HC. rewrite !firstn_all in HF, HC.
    set (vs := concat (map (costs_of out back D) routes)) in *.
    assert (Lcs : length cs = length vs).
    { clear - HC. revert HC. generalize vs as l. intros l H. rewrite <- (map_length (fun v : num => [v]) l). induction H; cbn; congruence. }
    assert (Lv : 3 <= length vs).
    { unfold vs. destruct routes as [|r0 rs]; [unfold k in Hk; cbn in Hk; lia|]. cbn [map concat]. rewrite app_length. cbn [costs_of length]. lia. }
    assert (Esev : several BPlus NAdd cs = nary NAdd cs) by (destruct cs as [|? [|? [|? ?]]]; cbn in Lcs; try lia; reflexivity).
    apply runs_bind. rewrite Esev.
    eapply runs_nary with (shs := map (fun _ => []) cs) (sh := []) (w := [qsum_of vs]); [exact (grows_open G)|exact HC| | | |].
    { apply map_ext_in. intros y Hy. rewrite Forall_forall in Hsh. now apply Hsh. }
    { destruct cs as [|y cs]; [cbn in Lcs; lia|]. clear. unfold nary_new. cbn [map].
      replace (existsb _ _) with false. 2:{ cbn. induction cs; cbn; auto. } replace (forallb _ _) with true; [reflexivity|]. cbn. induction cs; cbn; auto. }
    { cbn [nop_func]. rewrite map_length, Lcs. apply nary_sum. destruct vs; [cbn in Lv; lia|discriminate]. }
    intros t m9 S9 F9.
    apply runs_bind. eapply runs_minimize; [exact F9|reflexivity|]. apply runs_ret. split; [reflexivity|]. split.
    { intros i Hi. pose proof (Fr i Hi) as FF. apply (fact_grows G), (fact_steps S9) in FF. destruct FF as [[q E1] _]. do 2 eexists. exact E1. }
    split.
    + eapply fact_objective. replace (qsum_of (map (route out back D) routes)) with (qsum_of vs); [exact F9|]. unfold vs. clear.
      induction routes as [|r rs IH]; [reflexivity|]. cbn [map concat]. rewrite qsum_app, IH, costs_route. reflexivity.
    + assert (C : p_cons m9 = ks).
      { destruct S9 as (_ & _ & -> & _). destruct G as (_ & _ & -> & _).
        repeat match goal with S : steps _ _ _ |- _ => destruct S as (_ & _ & ? & _) end.
        repeat match goal with H : p_cons ?m = _ |- context [p_cons ?m] => rewrite H end. reflexivity. }
      rewrite C. eapply holds_feasible with (B := nobody) (bs := map (fun r => qleb (total demand r) capacity) routes).
      * eapply Forall2_imp; [|exact HF]. intros y b. apply holds_keeps. exact (steps_keeps S9).
      * rewrite Forall_map. split; intros H; (eapply Forall_impl; [|exact H]); cbn beta; intros b; apply qleb_true.
Qed.
End Routing.

(** From a matrix that includes the depot. *)
Section Depot.
Variable D : list (list num).
Let C := map (fun r => tl r) (tl D).
Lemma nth_tl {A} (l : list A) i d : nth i (tl l) d = nth (S i) l d.
Proof. destruct l; [now destruct i|reflexivity]. Qed.
Lemma entry_inner i j : entry C i j = entry D (S i) (S j).
Proof. unfold entry, C. change (@nil num) with (tl (@nil num)) at 1. rewrite (map_nth (@tl num)), !nth_tl. reflexivity. Qed.
Lemma path_inner r : path C r = path D (map S r).
Proof.
  induction r as [|a r IH]; [reflexivity|]. destruct r as [|b r]; [reflexivity|].
  change (path C (a :: b :: r)) with (entry C a b + path C (b :: r))%Qc.
  change (path D (map S (a :: b :: r))) with (entry D (S a) (S b) + path D (map S (b :: r)))%Qc. now rewrite IH, entry_inner.
Qed.
Lemma nth_hd_col i : nth i (map (hd 0%Qc) (tl D)) 0%Qc = entry D (S i) 0.
Proof. change 0%Qc with (hd 0%Qc (@nil num)) at 2. rewrite map_nth, nth_tl. unfold entry. now destruct (nth (S i) D []). Qed.
Lemma last_S r a : last (map S (a :: r)) 0 = S (last (a :: r) 0).
Proof. revert a; induction r as [|b r IH]; intros a; [reflexivity|]. exact (IH b). Qed.
Lemma route_trip r : route (tl (hd [] D)) (map (hd 0%Qc) (tl D)) C r = trip D r.
Proof.
  unfold route, trip. destruct r as [|a r]; [reflexivity|]. unfold tour. rewrite nth_hd_col, nth_tl, path_inner.
  change (hd 0 (0 :: map S (a :: r))) with 0. change (path D (0 :: map S (a :: r))) with (entry D 0 (S a) + path D (map S (a :: r)))%Qc.
  change (last (0 :: map S (a :: r)) 0) with (last (map S (a :: r)) 0). rewrite last_S. unfold entry at 2. now destruct D.
Qed.
End Depot.

Lemma cvrp_runs n demand capacity (D : list (list num)) (routes : list (list nat)) dv :
  1 <= n -> (Z.of_nat n < 2147483647)%Z -> matrix (S n) (S n) D -> Forall nonnegative D ->
  length demand = n -> Forall (fun x => 0 < x)%Qc demand -> (0 < capacity)%Qc ->
  (qsum_of demand <= zq (Z.of_nat (length routes)) * capacity)%Qc -> 1 <= length routes ->
  Forall (fun r => length r <= n /\ Forall (fun i => i < n) r) routes -> (forall i, i < length routes -> dv (6 + i) = numbers (nth i routes [])) ->
  runs (capacitated_vehicle_routing (0%Qc :: demand) (length routes) capacity D) no_model (fun r m => r = (5, seq 6 (length routes)) /\
    (forall i, i < length routes -> decision m (6 + i) (KListOf 5 (Z.of_nat n) (length routes) i) [-1]%Z) /\
    objective m dv (qsum_of (map (trip D) routes)) /\ feasible_iff m dv (Forall (fun r => total demand r <= capacity)%Qc routes)).
Proof.
  intros Hn Hs HD HD0 Hl Hpos Hc Htot Hk Hr Hdv. unfold capacitated_vehicle_routing.
  apply runs_bind. unfold unless at 1. destruct (Nat.eqb_spec (length routes) 0); [lia|]. apply runs_ret.
  apply runs_bind. unfold unless at 1.
  replace (qleb capacity 0%Qc) with false by (destruct (qleb_spec capacity 0%Qc) as [L|]; [exfalso; exact (Qclt_not_le _ _ Hc L)|reflexivity]). apply runs_ret.
  apply runs_bind. apply runs_require_vector.
  { constructor; [apply Qcle_refl|]. eapply Forall_impl; [|exact Hpos]. intros x Hx. now apply Qclt_le_weak. }
  apply runs_bind. unfold unless at 1. replace (qltb _ _) with false.
  2:{ symmetry. cbn [fold_right]. replace (fold_right Qcplus 0%Qc demand) with (qsum_of demand) by (clear; induction demand; cbn; congruence).
      rewrite Qcplus_0_l. destruct (qltb_spec (zq (Z.of_nat (length routes)) * capacity)%Qc (qsum_of demand)) as [L|]; [|reflexivity].
      exfalso. exact (Qclt_not_le _ _ L Htot). }
  apply runs_ret.
  apply runs_bind. eapply runs_require_square; [|exact HD|exact HD0|]; [lia|].
  apply runs_bind. unfold unless at 1. destruct (Z.ltb_spec (Z.of_nat (S n)) 2); [lia|]. apply runs_ret.
  apply runs_bind. unfold unless at 1, zlen. cbn [length]. rewrite Hl, Z.eqb_refl. apply runs_ret.
  apply runs_bind. unfold unless at 1. cbn [hd]. destruct (qeqb_spec 0%Qc 0%Qc); [|congruence]. apply runs_ret.
  cbn [tl]. eapply runs_mono; [|eapply cvrp_core_runs with (routes := routes) (dv := dv)].
  - cbv beta. intros r m (-> & Hd & Ho & Hf). split; [reflexivity|]. split; [rewrite <- Hl; exact Hd|]. split; [|exact Hf].
    replace (map (trip D) routes) with (map (route (tl (hd [] D)) (map (hd 0%Qc) (tl D)) (map (fun r => tl r) (tl D))) routes); [exact Ho|].
    apply map_ext. intros r. apply route_trip.
  - exact Hk.
  - rewrite Hl. lia.
  - rewrite Hl. destruct HD as [H1 H2]. destruct D as [|row D']; [cbn in H1; lia|]. cbn [tl]. split; [rewrite map_length; cbn in H1; lia|].
    inversion H2 as [|x l E1 E2]; subst. rewrite Forall_map. eapply Forall_impl; [|exact E2]. cbv beta. intros x Hx. destruct x; cbn in Hx |- *; lia.
  - rewrite Hl. destruct HD as [H1 H2]. destruct D as [|row D']; [cbn in H1; lia|]. cbn [hd]. inversion H2 as [|x l E1 E2]; subst. destruct row; cbn in E1 |- *; lia.
  - rewrite Hl. destruct HD as [H1 H2]. destruct D as [|row D']; [cbn in H1; lia|]. cbn [tl]. rewrite map_length. cbn in H1. lia.
  - eapply Forall_impl; [|exact Hpos]. cbv beta. intros x Hx ->. exact (Qclt_not_le _ _ Hx (Qcle_refl _)).
  - rewrite Hl. exact Hr.
  - exact Hdv.
Qed.
