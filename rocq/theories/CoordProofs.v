(** Vehicle routing from locations is vehicle routing from their distances. *)
From Coq Require Import Permutation.
From Verif Require Import Base Num SliceModel NarySpec PyModel GenModel PySpec GenSpec PyProofs PyValues PyRules GenProofs GenProofs2 GenProofs3 GenProofs7 CoordModel CoordSpec.
Set Implicit Arguments.
Local Open Scope nat_scope.

Definition gap (root : num -> num) (p q : num * num) : num := root ((fst p - fst q) * (fst p - fst q) + (snd p - snd q) * (snd p - snd q))%Qc.
Lemma gap_sym root p q : gap root p q = gap root q p.
Proof. unfold gap. f_equal. ring. Qed.
Lemma shifted (ps : list (num * num)) a b : combine (map (fun x => x - a)%Qc (map fst ps)) (map (fun y => y - b)%Qc (map snd ps)) = map (fun p => (fst p - a, snd p - b)%Qc) ps.
Proof. induction ps as [|p ps IH]; [reflexivity|]. cbn [map combine]. now rewrite IH. Qed.
Lemma distances_square root ps : matrix (length ps) (length ps) (distances root ps).
Proof. split; [apply map_length|]. apply Forall_map, Forall_forall. intros p _. apply map_length. Qed.
Lemma distances_nonneg root ps : (forall z, (0 <= z)%Qc -> (0 <= root z)%Qc) -> Forall nonnegative (distances root ps).
Proof.
  intros H. apply Forall_map, Forall_forall. intros p _. apply Forall_map, Forall_forall. intros q _. apply H.
  assert (S : forall x : num, (0 <= x * x)%Qc).
  { assert (P : forall x : num, (0 <= x)%Qc -> (0 <= x * x)%Qc) by (intros x Hx; rewrite <- (Qcmult_0_l x); now apply Qcmult_le_compat_r).
    intros x. destruct (Qclt_le_dec x 0%Qc) as [L|L]; [|now apply P]. replace (x * x)%Qc with (- x * - x)%Qc by ring. apply P. apply Qclt_le_weak in L. apply Qcopp_le_compat in L. exact L. }
  rewrite <- (Qcplus_0_l 0%Qc). apply Qcplus_le_compat; apply S.
Qed.
Lemma not_zero (d : list num) : d <> [] -> Forall (fun x => 0 < x)%Qc d -> qeqb (hd 0%Qc d) 0%Qc = false.
Proof. intros Hd Hpos. destruct d as [|x d']; [contradiction|]. inversion Hpos as [|? ? Hx _]; subst. cbn [hd]. destruct (qeqb_spec x 0%Qc) as [->|]; [|reflexivity]. exfalso. exact (Qclt_not_eq _ _ Hx eq_refl). Qed.
Section Same.
Variable (root : num -> num) (k : nat) (capacity : num) (demand xs ys : list num) (depot : option (num * num)) (d : list num) (p0 : num * num) (ps : list (num * num)).
Hypothesis HL : located demand xs ys depot d p0 ps.
Hypothesis Hd : d <> [].
Hypothesis Hpos : Forall (fun x => 0 < x)%Qc d.
Hypothesis Hk : 1 <= k.
Hypothesis Hc : (0 < capacity)%Qc.
Hypothesis Ht : (qsum_of d <= zq (Z.of_nat k) * capacity)%Qc.
Let core := cvrp_core d k capacity (map (fun p => map (gap root p) ps) ps) (map (gap root p0) ps) (map (fun p => gap root p p0) ps).
Lemma sum_fold (l : list num) : fold_right Qcplus 0%Qc l = qsum_of l.
Proof. induction l; cbn; congruence. Qed.
Lemma checks {A} (f : py A) : (do _ <- unless (k =? 0) ; do _ <- unless (qleb capacity 0%Qc) ; f) no_model = f no_model.
Proof.
  unfold bind, unless, ret. destruct (Nat.eqb_spec k 0); [lia|]. destruct (qleb_spec capacity 0%Qc) as [L|]; [exfalso; exact (Qclt_not_le _ _ Hc L)|]. reflexivity.
Qed.
Lemma checks_demand {A} l (f : py A) : l = d \/ l = 0%Qc :: d -> (do _ <- require_vector l ; do _ <- unless (qltb (zq (Z.of_nat k) * capacity)%Qc (fold_right Qcplus 0%Qc l)) ; f) no_model = f no_model.
Proof.
  intros H. unfold bind. assert (N : nonnegative l).
  { assert (N : nonnegative d) by (eapply Forall_impl; [|exact Hpos]; intros x Hx; now apply Qclt_le_weak). destruct H as [-> | ->]; [exact N|]. constructor; [apply Qcle_refl|exact N]. }
  destruct (require_vector_cases l no_model) as [[-> _]|[_ C]]; [|contradiction]. unfold unless, ret. rewrite sum_fold. assert (E : qsum_of l = qsum_of d) by (destruct H as [-> | ->]; [reflexivity|]; cbn [qsum_of]; apply Qcplus_0_l). rewrite E.
  destruct (qltb_spec (zq (Z.of_nat k) * capacity)%Qc (qsum_of d)) as [L|]; [exfalso; exact (Qclt_not_le _ _ L Ht)|]. reflexivity.
Qed.
Lemma core_locations : let q := map (fun p => (fst p - fst p0, snd p - snd p0)%Qc) ps in
  cvrp_core d k capacity (map (fun p => map (apart root p) q) q) (map (fun p => apart root p (0, 0)%Qc) q) (map (fun p => apart root p (0, 0)%Qc) q) = core.
Proof.
  cbv zeta. unfold core. rewrite !map_map. f_equal.
  - apply map_ext. intros p. rewrite map_map. apply map_ext. intros q. unfold apart, gap. cbn [fst snd]. cbv zeta. f_equal. ring.
  - apply map_ext. intros p. unfold apart, gap. cbn [fst snd]. cbv zeta. f_equal. ring.
  - apply map_ext. intros p. unfold apart, gap. cbn [fst snd]. cbv zeta. f_equal. ring.
Qed.
Lemma locations_core : cvrp_locations root demand k capacity xs ys depot no_model = core no_model.
Proof.
  destruct HL as [Hl H]. assert (Hp : 1 <= length ps) by (destruct d; [contradiction|cbn in Hl; lia]). unfold cvrp_locations. rewrite checks, checks_demand by (destruct H as [(_ & -> & _)|(_ & -> & _)]; auto).
  unfold bind, unless, zlen, places. destruct H as [(-> & -> & -> & ->)|(-> & -> & -> & ->)].
  - cbn [map length hd tl]. rewrite !map_length, Hl, Z.eqb_refl. cbn [andb negb]. unfold ret, bind. destruct (Z.ltb_spec (Z.of_nat (S (length ps))) 1); [lia|]. destruct (qeqb_spec 0%Qc 0%Qc); [|congruence]. unfold unless, zlen. cbn [length]. rewrite map_length. destruct (Z.ltb_spec (Z.of_nat (S (length ps))) 2); [lia|]. unfold ret. cbv beta iota.
    rewrite shifted. now rewrite core_locations.
  - rewrite !map_length, Hl, Z.eqb_refl. cbn [andb negb]. unfold ret. destruct (Z.ltb_spec (Z.of_nat (length ps)) 1); [lia|]. rewrite (not_zero Hd Hpos). assert (Ea : exists a b, p0 = (a, b)) by (destruct p0; eauto). destruct Ea as (a & b & Ea). pose proof core_locations as C. cbv zeta in C. rewrite Ea in C. cbn [fst snd] in C. rewrite Ea. cbv beta iota. rewrite shifted, C. reflexivity.
Qed.
Lemma distances_core : (forall z, (0 <= z)%Qc -> (0 <= root z)%Qc) -> capacitated_vehicle_routing (0%Qc :: d) k capacity (distances root (p0 :: ps)) no_model = core no_model.
Proof.
  intros Hr. destruct HL as [Hl _]. assert (Hp : 1 <= length ps) by (destruct d; [contradiction|cbn in Hl; lia]). unfold capacitated_vehicle_routing. rewrite checks, checks_demand by auto.
  unfold bind at 1. pose proof (distances_square root (p0 :: ps)) as HM. destruct (require_square_cases (distances root (p0 :: ps)) no_model) as [(n & -> & Hn & HD & _)|[_ C]].
  2:{ exfalso. apply C. exists (length (p0 :: ps)). split; [cbn; lia|]. split; [exact HM|now apply distances_nonneg]. }
  assert (n = S (length ps)) as -> by (destruct HM as [H1 _], HD as [H2 _]; cbn [length] in H1; congruence). unfold bind, unless, zlen. destruct (Z.ltb_spec (Z.of_nat (S (length ps))) 2); [lia|]. unfold ret. cbn [length hd]. rewrite Hl, Z.eqb_refl. cbn [negb]. destruct (qeqb_spec 0%Qc 0%Qc); [|congruence]. cbn [negb].
  unfold distances. cbn [map tl hd]. rewrite !map_map. cbn [tl hd]. reflexivity.
Qed.
Theorem locations_distances : (forall z, (0 <= z)%Qc -> (0 <= root z)%Qc) ->
  cvrp_locations root demand k capacity xs ys depot no_model = capacitated_vehicle_routing (0%Qc :: d) k capacity (distances root (p0 :: ps)) no_model.
Proof. intros Hr. now rewrite locations_core, distances_core. Qed.
End Same.
(** What is refused. *)
Lemma pair_up (xs ys : list num) : length xs = length ys -> exists ps, xs = map fst ps /\ ys = map snd ps /\ length ps = length xs.
Proof. revert ys. induction xs as [|x xs IH]; intros [|y ys] H; try discriminate; [exists []; auto|]. destruct (IH ys) as (ps & -> & -> & E); [now injection H|]. exists ((x, y) :: ps). cbn. auto. Qed.
Theorem locations_refuses root demand k capacity xs ys depot : ~ (exists d p0 ps, located demand xs ys depot d p0 ps /\ d <> [] /\ 1 <= k /\ (0 < capacity)%Qc /\ Forall (fun x => 0 < x)%Qc d /\ (qsum_of d <= zq (Z.of_nat k) * capacity)%Qc) ->
  cvrp_locations root demand k capacity xs ys depot no_model = Throw.
Proof.
  intros H. unfold cvrp_locations. unfold bind at 1, unless at 1. destruct (Nat.eqb_spec k 0) as [|Hk]; [reflexivity|]. unfold ret at 1.
  unfold bind at 1, unless at 1. destruct (qleb_spec capacity 0%Qc) as [L|L]; [reflexivity|]. unfold ret at 1.
  unfold bind at 1. destruct (require_vector_cases demand no_model) as [(-> & HW)|(-> & _)]; [|reflexivity].
  unfold bind at 1, unless at 1. destruct (qltb_spec (zq (Z.of_nat k) * capacity)%Qc (fold_right Qcplus 0%Qc demand)) as [L'|L']; [reflexivity|]. unfold ret at 1.
  unfold bind at 1, unless at 1, zlen at 1 2 3 4. destruct (Z.eqb_spec (Z.of_nat (length xs)) (Z.of_nat (length ys))) as [E1|]; [|reflexivity]. destruct (Z.eqb_spec (Z.of_nat (length ys)) (Z.of_nat (length demand))) as [E2|]; [|reflexivity]. cbn [andb negb]. unfold ret at 1.
  unfold bind at 1, unless at 1, zlen at 1. destruct (Z.ltb_spec (Z.of_nat (length xs)) 1) as [|Hx]; [reflexivity|]. unfold ret at 1.
  apply Nat2Z.inj in E1, E2. apply Qcnot_lt_le in L'. rewrite sum_fold in L'. apply Qcnot_le_lt in L. destruct (@pair_up xs ys E1) as (ps & Ex & Ey & Lp).
  assert (Pos : forall d, nonnegative d -> existsb (fun x => qeqb x 0%Qc) d = false -> Forall (fun x => 0 < x)%Qc d).
  { intros d Hd Ez. apply Forall_forall. intros x Hx'. unfold nonnegative in Hd. rewrite Forall_forall in Hd. destruct (Qcle_lt_or_eq _ _ (Hd x Hx')) as [|<-]; [assumption|].
    assert (existsb (fun x => qeqb x 0%Qc) d = true); [|congruence]. apply existsb_exists. exists 0%Qc. split; [exact Hx'|]. now destruct (qeqb_spec 0%Qc 0%Qc). }
  unfold bind at 1, places. destruct (qeqb_spec (hd 0%Qc demand) 0%Qc) as [Hh|Hh].
  - unfold bind at 1, unless at 1, zlen at 1. destruct (Z.ltb_spec (Z.of_nat (length xs)) 2) as [|Hx2]; [reflexivity|]. unfold ret at 1. destruct depot as [|]; [reflexivity|]. unfold ret at 1. cbv zeta.
    unfold cvrp_core. cbv zeta. unfold bind at 1, unless at 1. destruct (existsb (fun x => qeqb x 0%Qc) (tl demand)) eqn:Ez; [reflexivity|]. exfalso. apply H.
    destruct demand as [|z d]; [cbn in E2; lia|]. cbn [hd tl length] in *. subst z. destruct ps as [|p0 ps]; [cbn in Lp; lia|]. exists d, p0, ps. split; [split; [cbn in Lp; lia|left; repeat split; assumption]|].
    split; [intros ->; cbn in E2; lia|]. split; [lia|]. split; [exact L|]. split; [apply Pos; [inversion HW; assumption|exact Ez]|]. cbn [qsum_of] in L'. rewrite Qcplus_0_l in L'. exact L'.
  - destruct depot as [p0|]; [|reflexivity]. unfold ret at 1. destruct p0 as [a b]. cbv zeta. unfold cvrp_core. cbv zeta. unfold bind at 1, unless at 1. destruct (existsb (fun x => qeqb x 0%Qc) demand) eqn:Ez; [reflexivity|]. exfalso. apply H.
    exists demand, (a, b), ps. split; [split; [lia|right; repeat split; assumption]|]. split; [intros ->; cbn in E2; lia|]. split; [lia|]. split; [exact L|]. split; [now apply Pos|exact L'].
Qed.
