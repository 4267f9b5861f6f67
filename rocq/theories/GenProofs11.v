(** Vehicle routing with time windows: which instances are accepted, and the model they give. *)
From Coq Require Import Permutation.
From Verif Require Import Base Num SliceModel ShapeModel ShapeSpec SliceSpec StateDataModel NodeSpec BinaryModel BasicModel BasicSpec ViewModel ElemModel NaryModel
  ReduceModel BoundsModel PermModel AdvModel NarySpec ReduceSpec BinarySpec ElemSpec PermSpec ViewSpec AdvSpec ProposeSpec PyModel GenModel PySpec GenSpec PyProofs PyValues PyRules
  GenProofs GenProofs2 GenProofs3 GenProofs4 GenProofs5 GenProofs6 GenProofs7 GenProofs8 GenProofs9 GenProofs10.
Set Implicit Arguments.

Lemma adds_time_windows d k c T o cl s : adds k (cvrp_time_windows d k c T o cl s).
Proof.
  unfold cvrp_time_windows. cbv zeta. do 12 (apply adds_bind0; [counting|intros ?]). apply adds_bind0; [destruct (list_qeqb _ _); counting|intros [t1 t2]].
  do 8 (apply adds_bind0; [counting|intros ?]). apply adds_bind1.
  - unfold disjoint_lists. apply adds_bind0; [counting|intros ?]. apply adds_bind1; [now apply adds_parts|]. intros. counting.
  - intros [main routes]. unfold tw_rest, tw_vehicle, tw_slot, tw_cost, ge. counting.
Qed.
Lemma any_routes n k b : 1 <= k -> exists routes (dv : nat -> list num), length routes = k /\ Permutation (concat routes) (seq 0 n) /\ (forall i, i < k -> dv (b + i) = numbers (nth i routes [])).
Proof.
  intros Hk. exists (seq 0 n :: repeat [] (k - 1)), (fun i => numbers (nth (i - b) (seq 0 n :: repeat [] (k - 1)) [])). split; [cbn [length]; rewrite repeat_length; lia|]. split.
  - cbn [concat]. rewrite repeat_concat, app_nil_r. apply Permutation_refl.
  - intros i _. now replace (b + i - b) with i by lia.
Qed.
Lemma routes_fine n routes : Permutation (concat routes) (seq 0 n) -> Forall (fun r => length r <= n /\ Forall (fun i => i < n) r) routes.
Proof.
  intros Hp. pose proof (partition_ok _ _ Hp) as HP. rewrite Forall_forall in HP |- *. intros r Hr. split; [|now apply HP].
  rewrite <- (seq_length n 0), <- (Permutation_length Hp). now apply in_concat_length.
Qed.
Theorem tw_model n k demand capacity T open close service : let q := 3 * (n / k) in tw_proper n k demand capacity T open close service -> 1 <= q <= n + 1 ->
  exists b m, cvrp_time_windows (0%Qc :: demand) k capacity T open close service no_model = Ok ((b - 1, seq b k), m) /\ (forall x, In x (decisions m) <-> b <= x < b + k) /\
    (forall i, i < k -> decision m (b + i) (KListOf (b - 1) (Z.of_nat n) k i) [-1]%Z) /\
    forall dv routes, length routes = k -> Permutation (concat routes) (seq 0 n) -> (forall i, i < k -> dv (b + i) = numbers (nth i routes [])) ->
      objective m dv (qsum_of (map (reversed_trip T) routes)) /\
      feasible_iff m dv (Forall (fun r => (total demand r <= capacity)%Qc /\ length r <= q /\ on_time T open close service (map S r) /\
        (length r < q -> (last (leaving T open service 0 0 (map S r)) 0 <= zq 1000000)%Qc)) routes).
Proof.
  intros q (Hn & Hs & Hk & HT & HT0 & Ho & Hc & Hse & Ho0 & Hc0 & Hs0 & Hl & Hpos & Hcap & Htot) Hq. exists (first_route T).
  destruct (any_routes n (first_route T) Hk) as (r0 & d0 & HH).
  destruct (@one_model _ (list (list nat) * (nat -> list num)) (cvrp_time_windows (0%Qc :: demand) k capacity T open close service) no_model
    (fun q => length (fst q) = k /\ Permutation (concat (fst q)) (seq 0 n) /\ (forall i, i < k -> snd q (first_route T + i) = numbers (nth i (fst q) [])))
    (fun p r m => r = (first_route T - 1, seq (first_route T) k) /\ (forall i, i < k -> decision m (first_route T + i) (KListOf (first_route T - 1) (Z.of_nat n) k i) [-1]%Z) /\
      objective m (snd p) (qsum_of (map (reversed_trip T) (fst p))) /\
      feasible_iff m (snd p) (Forall (fun r => (total demand r <= capacity)%Qc /\ length r <= q /\ on_time T open close service (map S r) /\
        (length r < q -> (last (leaving T open service 0 0 (map S r)) 0 <= zq 1000000)%Qc)) (fst p))) (r0, d0)) as (a & m & E & H).
  - intros [routes dv] (Hb & Hp & Hdv). cbn [fst snd] in *. subst k. apply (@tw_runs n demand capacity T open close service routes dv); auto; try lia. now apply routes_fine.
  - exact HH.
  - destruct (H (r0, d0) HH) as (-> & D0 & _). exists m. split; [exact E|]. split.
    { eapply many_decisions; [apply adds_time_windows|exact E|exact D0|reflexivity]. }
    split; [exact D0|]. intros dv routes Hb Hp Hdv. apply (H (routes, dv)). now repeat split.
Qed.
Theorem tw_accepts n k demand capacity T open close service : tw_proper n k demand capacity T open close service ->
  ((exists r, cvrp_time_windows (0%Qc :: demand) k capacity T open close service no_model = Ok r) <-> 1 <= 3 * (n / k) <= n + 1) /\
  (~ 1 <= 3 * (n / k) <= n + 1 -> cvrp_time_windows (0%Qc :: demand) k capacity T open close service no_model = Throw).
Proof.
  intros HP.
  assert (HT : ~ 1 <= 3 * (n / k) <= n + 1 -> cvrp_time_windows (0%Qc :: demand) k capacity T open close service no_model = Throw).
  { intros Hq. assert (HQ : 3 * (n / k) = 0 \/ S n < 3 * (n / k)) by (revert Hq; generalize (n / k); intros; lia).
    destruct HP as (Hn & Hs & Hk & HT & HT0 & Ho & Hc & Hse & Ho0 & Hc0 & Hs0 & Hl & Hpos & Hcap & Htot).
    destruct (any_routes n (first_route T) Hk) as (r0 & d0 & H1 & H2 & H3). subst k. apply (@tw_refused n demand capacity T open close service r0 d0); auto; [lia|now apply routes_fine]. }
  split; [|exact HT]. split.
  - intros [r E]. destruct (Nat.le_gt_cases 1 (3 * (n / k))), (Nat.le_gt_cases (3 * (n / k)) (n + 1)); [now split|..]; (rewrite HT in E; [discriminate|revert H H0; generalize (3 * (n / k)); intros; lia]).
  - intros Hq. destruct (tw_model HP Hq) as (b & m & E & _). eexists. exact E.
Qed.
(** So one vehicle is never enough, and with three or more there must be a customer for each. *)
Lemma one_vehicle n : 1 <= n -> ~ 1 <= 3 * (n / 1) <= n + 1.
Proof. intros H. rewrite Nat.div_1_r. lia. Qed.
Lemma three_vehicles n k : 3 <= k -> (1 <= 3 * (n / k) <= n + 1 <-> k <= n).
Proof.
  intros H. pose proof (Nat.div_mod n k ltac:(lia)). pose proof (Nat.mod_upper_bound n k ltac:(lia)). split.
  - intros [HA _]. destruct (Nat.le_gt_cases k n); [assumption|]. rewrite Nat.div_small in HA by assumption. lia.
  - intros Hk. assert (1 <= n / k) by (apply Nat.div_le_lower_bound; lia). nia.
Qed.
