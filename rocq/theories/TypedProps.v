(** C66: models whose elements are known to be within what their uses need have values, and run as they stand for. *)
From Coq Require Import Relations Permutation.
From Verif Require Import Base Num SliceModel ShapeModel StateDataModel NodeSpec ViewModel CollectionsModel ElemModel ReduceModel GraphModel GraphSpec ProposeModel ProposeSpec ProposeProofs PyModel GenModel PySpec GenSpec NarySpec
  DisjointModel GroupModel RunModel RunSpec RunSpec2 RunProofs RunProofs2 RunProofs3 RunProofs4 RunProofs6 RunProofs8 RunProofs9 GenProofs4 RunProofs10 RunProofs12 RunProofs13 RunProofs14.
Local Open Scope Z_scope.

(** The graph of a model, sorted, is one that can be run, if no symbol is made of itself; sums may have got operands made after them. *)
Theorem C66_graph m : grounded m -> exists g, history (build m) = Ok g /\ locked m g.
Proof. intros [rank H]. exact (build_locked_gen H). Qed.
Print Assumptions C66_graph.

(** Symbols have values: it is enough to know which elements each array may have. *)
Theorem C66_total strict dbg m : all_sound strict dbg m -> grounded m -> typed m -> RunSpec.total m.
Proof. exact (@typed_total strict dbg m). Qed.
Print Assumptions C66_total.

(** So such a model is built, sorted, and does what it stands for. *)
Theorem C66_run strict dbg m : all_sound strict dbg m -> grounded m -> typed m -> exists g, history (build m) = Ok g /\ locked m g /\ faithful strict dbg m g.
Proof.
  intros H1 H2 H3. destruct (C66_graph m H2) as (g & E & L). exists g. split; [exact E|]. split; [exact L|]. exact (run_faithful H1 (C66_total strict dbg m H1 H2 H3) L).
Qed.
Print Assumptions C66_run.

(** Bin packing: at all times the bins are a partition of the items, the objective is the number of bins used, and the
    constraints tell whether every bin is within its capacity. *)
Theorem C66_bin_packing strict dbg weights capacity : let n := length weights in
  (1 <= n)%nat -> Z.of_nat n < 2147483648 -> nonnegative weights -> (0 < capacity)%Qc -> Forall (fun w => (w <= capacity)%Qc) weights ->
  exists m g obj, bin_packing weights capacity no_model = Ok ((2%nat, seq 3 n), m) /\ history (build m) = Ok g /\ p_obj m = Some obj /\ faithful strict dbg m g /\
    forall st, running strict dbg m g st -> exists bins, length bins = n /\ Permutation (concat bins) (seq 0 n) /\
      (forall i, (i < n)%nat -> pin_of (nodes strict dbg m) g st (3 + i)%nat = Some (still (bits n (nth i bins [])))) /\
      pin_of (nodes strict dbg m) g st obj = Some (still [used bins]) /\
      exists sat, Forall2 (fun c b => pin_of (nodes strict dbg m) g st c = Some (still [b2q b])) (p_cons m) sat /\
        (Forall (fun b => b = true) sat <-> Forall (fun b => GenSpec.total weights b <= capacity)%Qc bins).
Proof. exact (@bin_packing_run strict dbg weights capacity). Qed.
Print Assumptions C66_bin_packing.

(** Job shop scheduling: the objective is the end of the last operation, and the constraints tell whether every job goes through
    its machines in order and no machine has two jobs at a time. *)
Theorem C66_job_shop strict dbg jobs k times M one_based bound : let T := map (map zq) times in let upper := match bound with None => fold_right Z.add 0 (concat times) | Some u => u end in
  (1 <= jobs)%nat -> (1 <= k)%nat -> (dbg = true -> (2 <= k)%nat) -> Z.of_nat (jobs * jobs * k) < 2147483648 -> matrix jobs k T -> Forall (Forall (fun t => 0 <= t)) times ->
  length M = jobs -> Forall (fun row => Permutation row (seq 0 k)) M -> one_based = 0%nat \/ one_based = 1%nat -> (forall u, bound = Some u -> 1 <= u) -> upper <= 2000000000 ->
  exists m g obj, job_shop_scheduling times (map (map (fun i => Z.of_nat (one_based + i))) M) bound no_model = Ok (2%nat, m) /\ history (build m) = Ok g /\ p_obj m = Some obj /\ faithful strict dbg m g /\
    forall st, running strict dbg m g st -> exists St e, matrix jobs k St /\ Forall (Forall (whole 0 upper)) St /\
      pin_of (nodes strict dbg m) g st 2%nat = Some (still (concat St)) /\ last_end T St jobs k e /\ pin_of (nodes strict dbg m) g st obj = Some (still [e]) /\
      exists sat, Forall2 (fun c b => pin_of (nodes strict dbg m) g st c = Some (still [b2q b])) (p_cons m) sat /\
        (Forall (fun b => b = true) sat <-> GenSpec.in_order T St M /\ no_overlap T St jobs k).
Proof. exact (@job_shop_run strict dbg jobs k times M one_based bound). Qed.
Print Assumptions C66_job_shop.

(** Flow shop scheduling: the list is an order of the jobs, and the objective is the makespan that C56 has for it (that of a shop whose first job
    holds all machines but the first until it has left the last). *)
Theorem C66_flow_shop strict dbg M J P : (1 <= M)%nat -> (1 <= J)%nat -> Z.of_nat (M * J) < 2147483648 -> matrix M J P -> Forall nonnegative P ->
  exists m g obj, flow_shop_scheduling P no_model = Ok (1%nat, m) /\ history (build m) = Ok g /\ p_obj m = Some obj /\ p_cons m = [] /\ faithful strict dbg m g /\
    forall st, running strict dbg m g st -> exists p, Permutation p (seq 0 J) /\ pin_of (nodes strict dbg m) g st 1%nat = Some (still (numbers p)) /\
      pin_of (nodes strict dbg m) g st obj = Some (still [held_makespan P p]).
Proof. exact (@flow_shop_run strict dbg M J P). Qed.
Print Assumptions C66_flow_shop.

(** Capacitated vehicle routing: the routes are lists that change size, of which parts are taken and used as indices.  At all times they partition the customers, the objective
    is the length of the trips, and the constraints tell whether no vehicle carries more than it can.  (Operations whose undefined result is discarded are not counted.) *)
Theorem C66_cvrp dbg n k demand capacity D : (1 <= n)%nat -> Z.of_nat (n * n) < 2147483648 -> (1 <= k)%nat -> matrix (S n) (S n) D -> Forall nonnegative D ->
  length demand = n -> Forall (fun x => 0 < x)%Qc demand -> (0 < capacity)%Qc -> (qsum_of demand <= zq (Z.of_nat k) * capacity)%Qc ->
  exists m g obj, capacitated_vehicle_routing (0%Qc :: demand) k capacity D no_model = Ok ((5%nat, seq 6 k), m) /\ history (build m) = Ok g /\ p_obj m = Some obj /\ faithful false dbg m g /\
    forall st, running false dbg m g st -> exists routes, length routes = k /\ Permutation (concat routes) (seq 0 n) /\
      (forall i, (i < k)%nat -> pin_of (nodes false dbg m) g st (6 + i)%nat = Some (still (numbers (nth i routes [])))) /\
      pin_of (nodes false dbg m) g st obj = Some (still [qsum_of (map (trip D) routes)]) /\
      exists sat, Forall2 (fun c b => pin_of (nodes false dbg m) g st c = Some (still [b2q b])) (p_cons m) sat /\
        (Forall (fun b => b = true) sat <-> Forall (fun r => GenSpec.total demand r <= capacity)%Qc routes).
Proof. exact (@cvrp_run dbg n k demand capacity D). Qed.
Print Assumptions C66_cvrp.
(** With time windows, when the instance is accepted (C55): the routes partition the customers at all times, the objective is the length of the trips (the other way round), and the constraints
    tell what C55 gives for them.  The customer at a stop is the sum of a range of at most one element. *)
Theorem C66_time_windows dbg n k demand capacity T open close service : let q := (3 * (n / k))%nat in tw_proper n k demand capacity T open close service -> Z.of_nat (S n * S n) < 2147483648 -> (1 <= q <= n + 1)%nat ->
  exists b m g obj, cvrp_time_windows (0%Qc :: demand) k capacity T open close service no_model = Ok (((b - 1)%nat, seq b k), m) /\ history (build m) = Ok g /\ p_obj m = Some obj /\ faithful false dbg m g /\
    forall st, running false dbg m g st -> exists routes, length routes = k /\ Permutation (concat routes) (seq 0 n) /\
      (forall i, (i < k)%nat -> pin_of (nodes false dbg m) g st (b + i)%nat = Some (still (numbers (nth i routes [])))) /\
      pin_of (nodes false dbg m) g st obj = Some (still [qsum_of (map (reversed_trip T) routes)]) /\
      exists sat, Forall2 (fun c b => pin_of (nodes false dbg m) g st c = Some (still [b2q b])) (p_cons m) sat /\
        (Forall (fun b => b = true) sat <-> Forall (fun r => (GenSpec.total demand r <= capacity)%Qc /\ (length r <= q)%nat /\ on_time T open close service (map S r) /\
          ((length r < q)%nat -> (last (leaving T open service 0 0 (map S r)) 0 <= zq 1000000)%Qc)) routes).
Proof. exact (@tw_run dbg n k demand capacity T open close service). Qed.
Print Assumptions C66_time_windows.

(** * Two items of weights 3 and 4, bins of 5: both in the first bin at first; then the second is moved to the other bin. *)
Definition ex_w : list num := [zq 3; zq 4].
Definition ex_bp : pym := Eval vm_compute in match bin_packing ex_w (zq 5) no_model with Ok (_, m) => m | _ => no_model end.
Definition ex_g : graph := match history (build ex_bp) with Ok g => g | _ => g_empty end.
Definition ex_N := nodes true true ex_bp.
Definition ex_start : states ex_N := match initialize_all ex_N ex_g (fun _ => None) with Ok st => st | _ => fun _ => None end.
Definition ex_obj : nat := match p_obj ex_bp with Some x => x | None => O end.
Definition ex_shown (st : states ex_N) (x : nat) : list num := match pin_of ex_N ex_g st x with Some p => pview p | None => [] end.
Example C66_ex_hyps : (1 <= length ex_w)%nat /\ Z.of_nat (length ex_w) < 2147483648 /\ nonnegative ex_w /\ (0 < zq 5)%Qc /\ Forall (fun w => (w <= zq 5)%Qc) ex_w.
Proof. split; [cbn; lia|]. split; [reflexivity|]. split; [repeat constructor; discriminate|]. split; [reflexivity|]. repeat constructor; discriminate. Qed.
Example C66_ex_start : running true true ex_bp ex_g ex_start /\ map (ex_shown ex_start) [3; 4]%nat = [map zq [1; 1]; map zq [0; 0]] /\ ex_shown ex_start ex_obj = [zq 1] /\
  map (ex_shown ex_start) (p_cons ex_bp) = [[zq 0]; [zq 1]].
Proof.
  split; [|split; [|split]; vm_compute; reflexivity]. apply rn_init with (fun _ => None).
  - intros x s _. destruct (source_cls (s_cls s)); exact I || reflexivity.
  - destruct C66_ex_hyps as (H1 & H2 & H3 & H4 & H5). destruct (C66_bin_packing true true ex_w (zq 5) H1 H2 H3 H4 H5) as (m & g & obj & E & Eg & _ & (Hi & _) & _).
    assert (Em : m = ex_bp) by (assert (E2 : bin_packing ex_w (zq 5) no_model = Ok ((2%nat, seq 3 2), ex_bp)) by (vm_compute; reflexivity); rewrite E in E2; now injection E2). subst m. assert (Eg' : g = ex_g) by (unfold ex_g; now rewrite Eg). subst g. destruct (Hi (fun _ => None)) as [st E'].
    + intros x s _. destruct (source_cls (s_cls s)); exact I || reflexivity.
    + unfold ex_start. fold ex_N in E'. now rewrite E'.
Qed.
Definition ex_swap (d : vn_ST (ex_N 2)) : option (vn_ST (ex_N 2)) := bs_step d (BSwap 0 1 1).
Definition ex_moved : states ex_N := match ex_start 2%nat with Some d => match ex_swap d with Some d' => sset ex_N ex_start 2 d' | None => ex_start end | None => ex_start end.
Definition ex_after (yes : bool) : states ex_N := match propose true ex_N ex_g (repeat false (length (p_syms ex_bp))) [2%nat] (fun _ => yes) ex_moved with Ok (_, st) => st | _ => ex_start end.
Example C66_ex_changes : changes true true ex_bp ex_g [2%nat] ex_start ex_moved.
Proof.
  split; [constructor; [intros []|constructor]|]. split; [intros x [<-|[]]; vm_compute; auto|]. intros x. split.
  - intros [<-|[]]. destruct (ex_start 2%nat) as [d|] eqn:E; [|vm_compute in E; discriminate]. destruct (ex_swap d) as [d'|] eqn:E'.
    + exists d, d'. split; [reflexivity|]. split; [unfold ex_moved; rewrite E, E'; apply sset_eq|]. apply rt_step. exists 0%nat, 1%nat, 1%nat. split; [vm_compute; lia|exact E'].
    + exfalso. vm_compute in E. injection E as <-. vm_compute in E'. discriminate.
  - intros Hx. unfold ex_moved. destruct (ex_start 2%nat) as [d|]; [|reflexivity]. destruct (ex_swap d) as [d'|]; [|reflexivity]. apply sset_neq. intros E. apply Hx. left. congruence.
Qed.
Example C66_ex_run : map (ex_shown (ex_after true)) [3; 4]%nat = [map zq [1; 0]; map zq [0; 1]] /\ ex_shown (ex_after true) ex_obj = [zq 2] /\
  map (ex_shown (ex_after true)) (p_cons ex_bp) = [[zq 1]; [zq 1]] /\
  map (ex_shown (ex_after false)) [3; 4]%nat = [map zq [1; 1]; map zq [0; 0]] /\ ex_shown (ex_after false) ex_obj = [zq 1].
Proof. repeat split; vm_compute; reflexivity. Qed.

(** * Two jobs on two machines *)
Definition ex_T : list (list Z) := [[2; 3]; [4; 1]].
Definition ex_M : list (list nat) := [[0; 1]; [1; 0]]%nat.
Example C66_ex_job_shop : matrix 2 2 (map (map zq) ex_T) /\ Forall (Forall (fun t => 0 <= t)) ex_T /\ length ex_M = 2%nat /\ Forall (fun row => Permutation row (seq 0 2)) ex_M /\ fold_right Z.add 0 (concat ex_T) = 10.
Proof.
  split; [split; [reflexivity|repeat constructor]|]. split; [repeat constructor; discriminate|]. split; [reflexivity|]. split; [|reflexivity]. constructor; [apply Permutation_refl|]. constructor; [apply perm_swap|constructor].
Qed.

(** * Values need the types: an index array of integers up to 2 into three elements, and one up to 3 *)
Definition ex_index (hi : Z) : py nat := do c <- constant [3] (map zq [5; 6; 7]) ; do i <- integer [2] 0 hi ; do a <- getitem c [PArr i] ; red RAdd a.
Definition ex_pym (hi : Z) : pym := Pym [Sym (KConst (map zq [5; 6; 7])) [] [3] true; Sym (KInteger 0 hi) [] [2] true; Sym (KAdv [true]) [0; 1]%nat [2] true; Sym (KRed RAdd) [2%nat] [] true] None [].
Example C66_ex_built hi : 0 <= hi <= 2000000000 -> ex_index hi no_model = Ok (3%nat, ex_pym hi).
Proof.
  intros H. unfold ex_index, constant, emit, bind, integer. replace (_ && _) with true by (symmetry; rewrite !andb_true_iff, !Z.leb_le; lia).
  replace (_ || _) with false by (symmetry; rewrite !orb_false_iff, !Z.ltb_ge; lia). reflexivity.
Qed.
Example C66_ex_sound hi : 0 <= hi <= 2000000000 -> all_sound true true (ex_pym hi) /\ grounded (ex_pym hi).
Proof.
  intros H. split.
  - unfold all_sound. cbn [ex_pym p_syms]. repeat apply Forall_cons; try apply Forall_nil; (split; [repeat constructor|]; split; [first [apply wf_shape0|apply wf_shape1; lia]|]); cbn [s_cls s_pred s_shape].
    + reflexivity.
    + cbn. lia.
    + split; [reflexivity|]. destruct (@adv_new1_any true 3 [2]) as (A & H1 & H2 & H3 & H4); [lia|cbn; lia|]. exists A. split; [exact H1|]. split; [exact H4|]. split; [reflexivity|]. rewrite H3. split; [repeat constructor|]. split; [now left|]. split; [reflexivity|]. repeat constructor.
    + split; [reflexivity|]. eexists. reflexivity.
  - exists (fun x => x). intros x s E. do 4 (destruct x as [|x]; [injection E as <-; cbn [s_pred s_cls]; split; [repeat constructor|reflexivity || discriminate]|]). destruct x; discriminate.
Qed.
Example C66_ex_typed : typed (ex_pym 2).
Proof.
  exists (fun x => if (x =? 1)%nat then index_of 3 else fun _ => True). intros x s E. destruct x as [|[|[|[|x]]]]; [injection E as <-..|destruct x; discriminate].
  - split; [constructor|]. repeat constructor.
  - split; [discriminate|]. intros q (z & -> & Hz). exists (Z.to_nat z). rewrite Z2Nat.id by lia. split; [lia|reflexivity].
  - split; [intros _; repeat constructor; eexists; split; reflexivity|]. cbn [s_cls s_pred]. split; [intros q _; exact I|]. split; [|left; reflexivity]. constructor; [|constructor]. intros q Hq. exact Hq.
  - split; [intros _; repeat constructor; eexists; split; reflexivity|]. cbn. left. intros q. exact I.
Qed.
Example C66_ex_untyped : ~ RunSpec.total (ex_pym 3).
Proof.
  intros H. destruct (H (fun _ => [zq 3; zq 3])) with (x := 2%nat) as [v Hv].
  - intros x s E. destruct x as [|[|[|[|x]]]]; [injection E as <-..|destruct x; discriminate]; (split; [|exact I]); cbn; try discriminate.
    intros _. split; [reflexivity|]. repeat constructor; exists 3; (split; [reflexivity|lia]).
  - eexists. split; reflexivity.
  - inversion Hv as [x s E D|x s ins w E D F M]; subst; injection E as <-; [discriminate|]. cbn [s_pred] in F. inversion F as [|? a ? l Y0 F1]; subst. inversion F1 as [|? b ? l1 Y1 F2]; subst. inversion F2; subst.
    inversion Y1 as [x s E1 D1|x s ins w1 E1 D1 F3 M1]; subst; injection E1 as <-; [|discriminate]. inversion Y0 as [x s E0 D0|x s ins w0 E0 D0 F4 M0]; subst; injection E0 as <-; [discriminate|].
    inversion F4; subst. injection M0 as <-. vm_compute in M. discriminate.
Qed.

(** * Three machines, two jobs: sums whose later terms come from symbols made after the sums' users *)
Definition ex_times : list (list num) := map (map zq) [[1; 4]; [2; 1]; [3; 2]].
Definition ex_flow : pym := Eval vm_compute in match flow_shop_scheduling ex_times no_model with Ok (_, m) => m | _ => no_model end.
Definition ex_fg : graph := match history (build ex_flow) with Ok g => g | _ => g_empty end.
Definition ex_fN := nodes true true ex_flow.
Definition ex_fstart : states ex_fN := match initialize_all ex_fN ex_fg (fun _ => None) with Ok st => st | _ => fun _ => None end.
Definition ex_fshown (st : states ex_fN) (x : nat) : list num := match pin_of ex_fN ex_fg st x with Some p => pview p | None => [] end.
Example C66_ex_flow_hyps : matrix 3 2 ex_times /\ Forall nonnegative ex_times.
Proof. split; [split; [reflexivity|repeat constructor]|repeat constructor; discriminate]. Qed.
Example C66_ex_flow : ex_fshown ex_fstart 1%nat = numbers [0; 1]%nat /\ option_map (ex_fshown ex_fstart) (p_obj ex_flow) = Some [held_makespan ex_times [0; 1]%nat] /\ held_makespan ex_times [0; 1]%nat = zq 9.
Proof. split; [|split]; vm_compute; reflexivity. Qed.

(** * Two customers with demands 3 and 4, two vehicles that carry 5: both on the first trip at first; then the second goes on the other trip. *)
Definition ex_D : list (list num) := map (map zq) [[0; 1; 2]; [3; 0; 6]; [7; 8; 0]].
Definition ex_vr : pym := Eval vm_compute in match capacitated_vehicle_routing (map zq [0; 3; 4]) 2 (zq 5) ex_D no_model with Ok (_, m) => m | _ => no_model end.
Definition ex_vg : graph := match history (build ex_vr) with Ok g => g | _ => g_empty end.
Definition ex_vN := nodes false true ex_vr.
Definition ex_vstart : states ex_vN := match initialize_all ex_vN ex_vg (fun _ => None) with Ok st => st | _ => fun _ => None end.
Definition ex_vobj : nat := match p_obj ex_vr with Some x => x | None => O end.
Definition ex_vshown (st : states ex_vN) (x : nat) : list num := match pin_of ex_vN ex_vg st x with Some p => pview p | None => [] end.
Example C66_ex_routes : (1 <= 2)%nat /\ matrix 3 3 ex_D /\ Forall nonnegative ex_D /\ Forall (fun x => 0 < x)%Qc (map zq [3; 4]) /\ (0 < zq 5)%Qc /\ (qsum_of (map zq [3; 4]) <= zq (Z.of_nat 2) * zq 5)%Qc /\
  trip ex_D [0; 1]%nat = zq (1 + 6 + 7) /\ trip ex_D [0]%nat = zq (1 + 3) /\ trip ex_D [1]%nat = zq (2 + 7).
Proof.
  split; [lia|]. split; [split; [reflexivity|repeat constructor]|]. split; [repeat constructor; discriminate|]. split; [repeat constructor|]. split; [reflexivity|]. split; [discriminate|]. repeat split; vm_compute; reflexivity.
Qed.
Definition ex_vpop (d : vn_ST (ex_vN 5)) : option (vn_ST (ex_vN 5)) := dl_step d (DPop 0 1 1 0).
Definition ex_vmoved : states ex_vN := match ex_vstart 5%nat with Some d => match ex_vpop d with Some d' => sset ex_vN ex_vstart 5 d' | None => ex_vstart end | None => ex_vstart end.
Definition ex_vafter (yes : bool) : states ex_vN := match propose false ex_vN ex_vg (repeat false (length (p_syms ex_vr))) [5%nat] (fun _ => yes) ex_vmoved with Ok (_, st) => st | _ => ex_vstart end.
Example C66_ex_trips : map (ex_vshown ex_vstart) [6; 7]%nat = [map zq [0; 1]; []] /\ ex_vshown ex_vstart ex_vobj = [zq 14] /\ map (ex_vshown ex_vstart) (p_cons ex_vr) = [[zq 0]; [zq 1]] /\
  map (ex_vshown (ex_vafter true)) [6; 7]%nat = [map zq [0]; map zq [1]] /\ ex_vshown (ex_vafter true) ex_vobj = [zq 13] /\ map (ex_vshown (ex_vafter true)) (p_cons ex_vr) = [[zq 1]; [zq 1]] /\
  map (ex_vshown (ex_vafter false)) [6; 7]%nat = [map zq [0; 1]; []] /\ ex_vshown (ex_vafter false) ex_vobj = [zq 14] /\ map (ex_vshown (ex_vafter false)) (p_cons ex_vr) = [[zq 0]; [zq 1]].
Proof. repeat split; vm_compute; reflexivity. Qed.

(** * The same with time windows: an instance that is accepted, and the length of the trip of the first vehicle, which visits both. *)
Definition ex_open : list num := map zq [0; 0; 5].
Definition ex_close : list num := map zq [20; 10; 9].
Definition ex_service : list num := map zq [0; 1; 1].
Definition ex_tw : pym := Eval vm_compute in match cvrp_time_windows (map zq [0; 3; 4]) 2 (zq 7) ex_D ex_open ex_close ex_service no_model with Ok (_, m) => m | _ => no_model end.
Definition ex_tg : graph := match history (build ex_tw) with Ok g => g | _ => g_empty end.
Definition ex_tN := nodes false true ex_tw.
Definition ex_start_of (N : nat -> vnode num) (g : graph) : states N := match initialize_all N g (fun _ => None) with Ok st => st | _ => fun _ => None end.
Definition ex_tstart : states ex_tN := ex_start_of ex_tN ex_tg.
Definition ex_tobj : nat := match p_obj ex_tw with Some x => x | None => O end.
Definition ex_shown_of (N : nat -> vnode num) (g : graph) (st : states N) (x : nat) : list num := match pin_of N g st x with Some p => pview p | None => [] end.
Definition ex_tshown (st : states ex_tN) (x : nat) : list num := ex_shown_of ex_tN ex_tg st x.
Example C66_ex_tw_hyps : tw_proper 2 2 (map zq [3; 4]) (zq 7) ex_D ex_open ex_close ex_service /\ (1 <= 3 * (2 / 2) <= 2 + 1)%nat /\ Z.of_nat (3 * 3) < 2147483648.
Proof.
  split; [|split; [cbn; lia|reflexivity]]. unfold tw_proper. split; [lia|]. split; [reflexivity|]. split; [lia|]. split; [split; [reflexivity|repeat constructor]|]. split; [repeat constructor; discriminate|]. do 3 (split; [reflexivity|]).
  do 3 (split; [repeat constructor; discriminate|]). split; [reflexivity|]. split; [repeat constructor|]. split; [reflexivity|discriminate].
Qed.
Example C66_ex_windows : map (ex_tshown ex_tstart) [11; ex_tobj]%nat = [map zq [0; 1]; [zq 16]].
Proof. vm_compute. reflexivity. Qed.
