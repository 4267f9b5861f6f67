(** C50-C57: the models that the generators make. *)
From Coq Require Import Permutation.
From Verif Require Import Base Num NarySpec PyModel GenModel PySpec GenSpec PyProofs GenProofs4 GenProofs6 GenProofs7 GenProofs8 GenProofs10 GenProofs11.

(** For given values of the decisions a symbol has at most one value. *)
Theorem C50_one_value m dv x v w : yields m dv x v -> yields m dv x w -> v = w.
Proof. apply yields_unique. Qed.
Print Assumptions C50_one_value.

(** * C50: traveling salesperson *)
Theorem C50_tsp n D : 1 <= n -> (Z.of_nat (n * n) < 2147483648)%Z -> matrix n n D -> Forall nonnegative D ->
  exists m, traveling_salesperson D no_model = Ok (0, m) /\ (forall x, In x (decisions m) <-> x = 0) /\ decision m 0 KList [Z.of_nat n] /\ p_cons m = [] /\
    forall dv p, Permutation p (seq 0 n) -> dv 0 = numbers p -> objective m dv (tour D p).
Proof. apply tsp_model. Qed.
Print Assumptions C50_tsp.
Theorem C50_refuses D : ~ (exists n, 1 <= n /\ matrix n n D /\ Forall nonnegative D) -> traveling_salesperson D no_model = Throw.
Proof. apply tsp_refuses. Qed.
Print Assumptions C50_refuses.
Definition dist3 : list (list num) := map (map zq) [[0; 1; 5]; [2; 0; 3]; [4; 7; 0]]%Z.
Ltac small_matrix := split; [reflexivity|repeat constructor].
Ltac no_negative := repeat (apply Forall_cons || apply Forall_nil); try (intros XX; discriminate XX); try (unfold Qcle; vm_compute; intros XX; discriminate XX).
Example C50_example : matrix 3 3 dist3 /\ Forall nonnegative dist3 /\ Permutation [2; 0; 1] (seq 0 3) /\ tour dist3 [2; 0; 1] = zq 8 /\ tour dist3 [1; 0; 2] = zq 14.
Proof.
  split; [small_matrix|]. split; [unfold dist3, nonnegative; cbn [map]; no_negative|]. split.
  { change (Permutation ([2] ++ [0; 1]) ([0; 1] ++ [2])). apply Permutation_app_comm. }
  split; vm_compute; reflexivity.
Qed.

(** * C51: quadratic assignment *)
Theorem C51_qap n D F : 1 <= n -> (Z.of_nat (n * n) < 2147483648)%Z -> matrix n n D -> matrix n n F -> Forall nonnegative D -> Forall nonnegative F ->
  exists m, quadratic_assignment D F no_model = Ok (0, m) /\ (forall x, In x (decisions m) <-> x = 0) /\ decision m 0 KList [Z.of_nat n] /\ p_cons m = [] /\
    forall dv p, Permutation p (seq 0 n) -> dv 0 = numbers p -> objective m dv (assignment_cost n D F p).
Proof. apply qap_model. Qed.
Print Assumptions C51_qap.
Theorem C51_refuses D F : ~ (exists n, 1 <= n /\ matrix n n D /\ matrix n n F /\ Forall nonnegative D /\ Forall nonnegative F) -> quadratic_assignment D F no_model = Throw.
Proof. apply qap_refuses. Qed.
Print Assumptions C51_refuses.
Definition flow3 : list (list num) := map (map zq) [[0; 2; 0]; [0; 0; 5]; [1; 0; 0]]%Z.
Example C51_example : matrix 3 3 flow3 /\ Forall nonnegative flow3 /\ assignment_cost 3 dist3 flow3 [2; 0; 1] = zq 16.
Proof. split; [small_matrix|]. split; [unfold flow3, nonnegative; cbn [map]; no_negative|]. vm_compute; reflexivity. Qed.

(** * C52: knapsack *)
Theorem C52_knapsack n values weights capacity : length values = n -> length weights = n -> (Z.of_nat n < 2147483648)%Z ->
  nonnegative values -> nonnegative weights -> (0 < capacity)%Qc ->
  exists m, knapsack values weights capacity no_model = Ok (3, m) /\ (forall x, In x (decisions m) <-> x = 3) /\
    decision m 3 (KSet (Z.of_nat n)) [if (n =? 0)%nat then 0 else -1]%Z /\
    forall dv items, NoDup items -> Forall (fun i => i < n) items -> dv 3 = numbers items ->
      objective m dv (- total values items)%Qc /\ feasible_iff m dv (total weights items <= capacity)%Qc.
Proof. apply knapsack_model. Qed.
Print Assumptions C52_knapsack.
Theorem C52_refuses values weights capacity : ~ (length values = length weights /\ nonnegative values /\ nonnegative weights /\ (0 < capacity)%Qc) ->
  knapsack values weights capacity no_model = Throw.
Proof. apply knapsack_refuses. Qed.
Print Assumptions C52_refuses.
Example C52_example : let v := map zq [5; 3; 8]%Z in let w := map zq [2; 1; 4]%Z in nonnegative v /\ nonnegative w /\ NoDup [2; 0] /\
  total v [2; 0] = zq 13 /\ total w [2; 0] = zq 6.
Proof.
  cbv zeta. split; [unfold nonnegative; cbn [map]; no_negative|]. split; [unfold nonnegative; cbn [map]; no_negative|]. split; [repeat constructor; cbn; lia|].
  split; vm_compute; reflexivity.
Qed.

(** * C53: bin packing *)
Theorem C53_bin_packing weights capacity : let n := length weights in
  1 <= n -> (Z.of_nat n < 2147483648)%Z -> nonnegative weights -> (0 < capacity)%Qc -> Forall (fun w => (w <= capacity)%Qc) weights ->
  exists m, bin_packing weights capacity no_model = Ok ((2, seq 3 n), m) /\ (forall x, In x (decisions m) <-> 3 <= x < 3 + n) /\
    (forall i, i < n -> decision m (3 + i) (KBitOf 2 (Z.of_nat n) n i) [Z.of_nat n]) /\
    forall dv bins, length bins = n -> Permutation (concat bins) (seq 0 n) -> (forall i, i < n -> dv (3 + i) = bits n (nth i bins [])) ->
      objective m dv (used bins) /\ feasible_iff m dv (Forall (fun b => total weights b <= capacity)%Qc bins).
Proof. apply bin_packing_model. Qed.
Print Assumptions C53_bin_packing.
Theorem C53_refuses weights capacity : ~ (weights <> [] /\ nonnegative weights /\ (0 < capacity)%Qc /\ Forall (fun w => (w <= capacity)%Qc) weights) ->
  bin_packing weights capacity no_model = Throw.
Proof. apply bin_packing_refuses. Qed.
Print Assumptions C53_refuses.
Example C53_example : let w := map zq [3; 5; 4]%Z in nonnegative w /\ Permutation (concat [[2; 0]; []; [1]]) (seq 0 3) /\ used [[2; 0]; []; [1]] = zq 2 /\
  total w [2; 0] = zq 7 /\ bits 3 [2; 0] = map zq [1; 0; 1]%Z.
Proof.
  cbv zeta. split; [unfold nonnegative; cbn [map]; no_negative|]. split.
  { change (Permutation ([2] ++ [0; 1]) ([0; 1] ++ [2])). apply Permutation_app_comm. }
  repeat split; vm_compute; reflexivity.
Qed.

(** * C54: capacitated vehicle routing, from a matrix of distances *)
Theorem C54_cvrp n k demand capacity D : 1 <= n -> (Z.of_nat n < 2147483647)%Z -> 1 <= k -> matrix (S n) (S n) D -> Forall nonnegative D ->
  length demand = n -> Forall (fun x => 0 < x)%Qc demand -> (0 < capacity)%Qc -> (qsum_of demand <= zq (Z.of_nat k) * capacity)%Qc ->
  exists m, capacitated_vehicle_routing (0%Qc :: demand) k capacity D no_model = Ok ((5, seq 6 k), m) /\ (forall x, In x (decisions m) <-> 6 <= x < 6 + k) /\
    (forall i, i < k -> decision m (6 + i) (KListOf 5 (Z.of_nat n) k i) [-1]%Z) /\
    forall dv routes, length routes = k -> Permutation (concat routes) (seq 0 n) -> (forall i, i < k -> dv (6 + i) = numbers (nth i routes [])) ->
      objective m dv (qsum_of (map (trip D) routes)) /\ feasible_iff m dv (Forall (fun r => total demand r <= capacity)%Qc routes).
Proof. apply cvrp_model. Qed.
Print Assumptions C54_cvrp.
Theorem C54_refuses demand k capacity D : ~ (exists n d, demand = 0%Qc :: d /\ length d = n /\ 1 <= n /\ 1 <= k /\ (0 < capacity)%Qc /\ Forall (fun x => 0 < x)%Qc d /\
    (qsum_of d <= zq (Z.of_nat k) * capacity)%Qc /\ matrix (S n) (S n) D /\ Forall nonnegative D) ->
  capacitated_vehicle_routing demand k capacity D no_model = Throw.
Proof. apply cvrp_refuses. Qed.
Print Assumptions C54_refuses.
Example C54_example : let d := map zq [2; 3]%Z in Forall (fun x => 0 < x)%Qc d /\ (qsum_of d <= zq 2 * zq 4)%Qc /\ matrix 3 3 dist3 /\
  Permutation (concat [[]; [1; 0]]) (seq 0 2) /\ qsum_of (map (trip dist3) [[]; [1; 0]]) = zq 14 /\ qsum_of (map (trip dist3) [[1]; [0]]) = zq 12.
Proof.
  cbv zeta. split; [cbn [map]; repeat constructor; vm_compute; reflexivity|]. split; [unfold Qcle; vm_compute; intros XX; discriminate XX|]. split; [small_matrix|].
  split; [change (Permutation [1; 0] [0; 1]); apply perm_swap|]. split; vm_compute; reflexivity.
Qed.

(** * C55: vehicle routing with time windows *)
(** Which proper instances are accepted. *)
Theorem C55_accepts n k demand capacity T open close service : tw_proper n k demand capacity T open close service ->
  ((exists r, cvrp_time_windows (0%Qc :: demand) k capacity T open close service no_model = Ok r) <-> 1 <= 3 * (n / k) <= n + 1) /\
  (~ 1 <= 3 * (n / k) <= n + 1 -> cvrp_time_windows (0%Qc :: demand) k capacity T open close service no_model = Throw).
Proof. apply tw_accepts. Qed.
Print Assumptions C55_accepts.
(** One vehicle is always refused; three or more are accepted when there is a customer for each. *)
Theorem C55_vehicles n k demand capacity T open close service : tw_proper n k demand capacity T open close service ->
  (k = 1 -> cvrp_time_windows (0%Qc :: demand) k capacity T open close service no_model = Throw) /\
  (3 <= k -> ((exists r, cvrp_time_windows (0%Qc :: demand) k capacity T open close service no_model = Ok r) <-> k <= n)).
Proof.
  intros HP. destruct (tw_accepts HP) as [H1 H2]. split.
  - intros ->. apply H2. apply one_vehicle. apply HP.
  - intros Hk. rewrite H1. now apply three_vehicles.
Qed.
Print Assumptions C55_vehicles.
(** The accepted ones: a route must not exceed the capacity, nor three times the average number of
    customers; it must be on time; and if it is shorter than that it must be over by time 10^6. *)
Theorem C55_time_windows n k demand capacity T open close service : let q := 3 * (n / k) in tw_proper n k demand capacity T open close service -> 1 <= q <= n + 1 ->
  exists b m, cvrp_time_windows (0%Qc :: demand) k capacity T open close service no_model = Ok ((b - 1, seq b k), m) /\ (forall x, In x (decisions m) <-> b <= x < b + k) /\
    (forall i, i < k -> decision m (b + i) (KListOf (b - 1) (Z.of_nat n) k i) [-1]%Z) /\
    forall dv routes, length routes = k -> Permutation (concat routes) (seq 0 n) -> (forall i, i < k -> dv (b + i) = numbers (nth i routes [])) ->
      objective m dv (qsum_of (map (reversed_trip T) routes)) /\
      feasible_iff m dv (Forall (fun r => (total demand r <= capacity)%Qc /\ length r <= q /\ on_time T open close service (map S r) /\
        (length r < q -> (last (leaving T open service 0 0 (map S r)) 0 <= zq 1000000)%Qc)) routes).
Proof. apply tw_model. Qed.
Print Assumptions C55_time_windows.
(** A proper instance that is accepted, a route that is on time and one that is not. *)
Example C55_instance : let o := map zq [0; 0; 5]%Z in let c := map zq [20; 10; 6]%Z in let s := map zq [0; 1; 1]%Z in
  tw_proper 2 2 [zq 1; zq 1] (zq 5) dist3 o c s /\ 1 <= 3 * (2 / 2) <= 2 + 1 /\
  on_time dist3 o c s [1; 2] /\ leaving dist3 o s 0%Qc 0 [1; 2] = map zq [2; 6]%Z /\ ~ on_time dist3 o c s [2; 1].
Proof.
  cbv zeta. split; [|split; [cbn; lia|]].
  - unfold tw_proper. split; [lia|]. split; [reflexivity|]. split; [lia|]. split; [small_matrix|]. split; [unfold dist3, nonnegative; cbn [map]; no_negative|].
    do 3 (split; [reflexivity|]). do 3 (split; [unfold nonnegative; cbn [map]; no_negative|]). split; [reflexivity|]. split; [repeat constructor; vm_compute; reflexivity|].
    split; [vm_compute; reflexivity|]. unfold Qcle; vm_compute; intros XX; discriminate XX.
  - split; [|split; [vm_compute; reflexivity|]].
    + cbn [on_time map]. split; [|unfold Qcle; vm_compute; intros XX; discriminate XX]. repeat constructor; unfold Qcle; vm_compute; intros XX; discriminate XX.
    + cbn [on_time map]. intros [HF _]. cbn [leaving] in HF. inversion HF as [|a b l l' _ H2]; subst. inversion H2 as [|a b l l' H1 _]; subst. revert H1. unfold Qcle. vm_compute. intros H1. now apply H1.
Qed.
(** A single vehicle, fewer customers than vehicles, or four customers and two vehicles: refused. *)
Definition calm (n k : nat) (T : list (list num)) : res (nat * list nat * pym) :=
  cvrp_time_windows (zq 0 :: repeat (zq 1) n) k (zq 100) T (repeat (zq 0) (S n)) (repeat (zq 1000) (S n)) (repeat (zq 0) (S n)) no_model.
Definition legs (n : nat) : list (list num) := map (fun i => map (fun j => zq (Z.of_nat (i + 2 * j))) (seq 0 (S n))) (seq 0 (S n)).
Theorem C55_accepts_refuted : calm 2 1 (legs 2) = Throw /\ calm 2 3 (legs 2) = Throw /\ calm 4 2 (legs 4) = Throw /\ exists r, calm 3 2 (legs 3) = Ok r.
Proof. repeat split; try (vm_compute; reflexivity). eexists. vm_compute. reflexivity. Qed.
Print Assumptions C55_accepts_refuted.
(** The objective goes through every route backwards between customers. *)
Theorem C55_cost_refuted : exists m r, calm 2 2 dist3 = Ok (r, m) /\ exists dv, dv (nth 0 (snd r) 0) = numbers [0; 1] /\ dv (nth 1 (snd r) 0) = numbers [] /\
  objective m dv (zq 12) /\ qsum_of (map (trip dist3) [[0; 1]; []]) = zq 8.
Proof.
  destruct (calm 2 2 dist3) as [[r m]| |] eqn:E; [|exfalso; vm_compute in E; discriminate..]. exists m, r. split; [reflexivity|].
  exists (fun x => if x =? nth 0 (snd r) 0 then numbers [0; 1] else []).
  vm_compute in E. injection E as <- <-. split; [reflexivity|]. split; [reflexivity|]. split; [|vm_compute; reflexivity].
  unfold objective. cbn [p_obj]. eexists. split; [reflexivity|]. apply value_yields with 60. vm_compute. reflexivity.
Qed.
Print Assumptions C55_cost_refuted.

(** * C56: flow shop *)
(** The objective is the makespan of a schedule in which the first job keeps every machine but the first
    until it leaves the last one. *)
Theorem C56_flow_shop M J P : matrix M J P -> 1 <= M -> 1 <= J -> (Z.of_nat (M * J) < 2147483648)%Z -> Forall nonnegative P ->
  exists m, flow_shop_scheduling P no_model = Ok (1, m) /\ (forall x, In x (decisions m) <-> x = 1) /\ decision m 1 KList [Z.of_nat J] /\ p_cons m = [] /\
    forall dv order, Permutation order (seq 0 J) -> dv 1 = numbers order -> objective m dv (held_makespan P order).
Proof. apply flow_shop_model. Qed.
Print Assumptions C56_flow_shop.
(** It is never less than the makespan, and is the makespan when there are one or two machines. *)
Theorem C56_upper_bound P order : P <> [] -> order <> [] -> Forall nonnegative P -> (makespan P order <= held_makespan P order)%Qc.
Proof. intros H1 H2 H3. apply makespan_le; auto. now apply times_ok. Qed.
Print Assumptions C56_upper_bound.
Theorem C56_two_machines P order : P <> [] -> order <> [] -> Forall nonnegative P -> length P <= 2 -> held_makespan P order = makespan P order.
Proof. intros H1 H2 H3 H4. symmetry. apply makespan_two; auto. now apply times_ok. Qed.
Print Assumptions C56_two_machines.
(** Three machines, two jobs, every operation of length one: 5 instead of 4. *)
Definition ones (M J : nat) : list (list num) := repeat (repeat 1%Qc J) M.
Theorem C56_makespan_refuted : exists m, flow_shop_scheduling (ones 3 2) no_model = Ok (1, m) /\ exists dv, dv 1 = numbers [0; 1] /\ objective m dv (zq 5) /\
  makespan (ones 3 2) [0; 1] = zq 4.
Proof.
  destruct (@flow_shop_model 3 2 (ones 3 2)) as (m & E & _ & _ & _ & H); [small_matrix|lia|lia|cbn; lia| |].
  { unfold nonnegative, ones. cbn [repeat]. no_negative. }
  exists m. split; [exact E|]. exists (fun _ => numbers [0; 1]). split; [reflexivity|]. split; [|vm_compute; reflexivity].
  replace (zq 5) with (held_makespan (ones 3 2) [0; 1]) by (vm_compute; reflexivity). apply H; [apply Permutation_refl|reflexivity].
Qed.
Print Assumptions C56_makespan_refuted.
Theorem C56_refuses P : ~ (exists M J, 1 <= M /\ 1 <= J /\ matrix M J P /\ Forall nonnegative P) -> flow_shop_scheduling P no_model = Throw.
Proof. apply flow_shop_refuses. Qed.
Print Assumptions C56_refuses.
Example C56_example : makespan (map (map zq) [[10; 5; 7]; [20; 10; 15]]%Z) [0; 1; 2] = zq 55 /\ held_makespan (map (map zq) [[10; 5; 7]; [20; 10; 15]]%Z) [0; 1; 2] = zq 55 /\
  makespan (map (map zq) [[1; 2]; [3; 4]; [5; 6]]%Z) [1; 0] = zq 17 /\ held_makespan (map (map zq) [[1; 2]; [3; 4]; [5; 6]]%Z) [1; 0] = zq 20.
Proof. repeat split; vm_compute; reflexivity. Qed.

(** * C57: job shop *)
Theorem C57_job_shop jobs k times M one_based bound : let T := map (map zq) times in let upper := horizon times bound in
  1 <= jobs -> 1 <= k -> (Z.of_nat (jobs * jobs * k) < 2147483648)%Z -> matrix jobs k T -> Forall (Forall (fun t => 0 <= t)%Z) times ->
  length M = jobs -> Forall (fun row => Permutation row (seq 0 k)) M -> one_based = 0 \/ one_based = 1 -> (forall u, bound = Some u -> (1 <= u)%Z) ->
  (upper <= 2000000000)%Z ->
  exists m, job_shop_scheduling times (map (map (fun i => Z.of_nat (one_based + i))) M) bound no_model = Ok (2, m) /\
    (forall x, In x (decisions m) <-> x = 2) /\ decision m 2 (KInteger 0 upper) [Z.of_nat jobs; Z.of_nat k] /\
    forall dv St, matrix jobs k St -> dv 2 = concat St ->
      (exists e, last_end T St jobs k e /\ objective m dv e) /\ feasible_iff m dv (in_order T St M /\ no_overlap T St jobs k).
Proof. apply job_shop_model. Qed.
Print Assumptions C57_job_shop.
Example C57_example : let times := [[2; 3]; [4; 1]]%Z in let T := map (map zq) times in let St := map (map zq) [[0; 2]; [2; 6]]%Z in
  matrix 2 2 T /\ Forall (fun row => Permutation row (seq 0 2)) [[0; 1]; [0; 1]] /\ horizon times None = 10%Z /\ matrix 2 2 St /\
  last_end T St 2 2 (zq 7) /\ in_order T St [[0; 1]; [0; 1]] /\ no_overlap T St 2 2.
Proof.
  cbv zeta. split; [small_matrix|]. split; [repeat constructor|]. split; [reflexivity|]. split; [small_matrix|]. split; [|split].
  - split; [exists 1, 1; repeat split; try lia; vm_compute; reflexivity|]. intros [|[|j]] [|[|k]] Hj Hk; try lia; vm_compute; intros XX; discriminate XX.
  - intros [|[|j]] [|p] Hj Hp; cbn in Hj, Hp; try lia; vm_compute; intros XX; discriminate XX.
  - intros [|u] [|[|v]] [|[|k]] H1 H2 H3; try lia; [left|left]; vm_compute; intros XX; discriminate XX.
Qed.
(** Times that add up to more than the largest integer variable are refused, and beyond the range of
    [int] their conversion is undefined. *)
Theorem C57_long_refuted : job_shop_scheduling [[2000000001]]%Z [[0]]%Z None no_model = Throw /\ job_shop_scheduling [[3000000000]]%Z [[0]]%Z None no_model = UB.
Proof. split; vm_compute; reflexivity. Qed.
Print Assumptions C57_long_refuted.
