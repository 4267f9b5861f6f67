(** C58: models built by the front end keep, under every history of proposals, every symbol at the value it stands for. *)
From Coq Require Import Relations Permutation.
From Verif Require Import Base Num SliceModel ShapeModel StateDataModel NodeSpec ViewModel CollectionsModel GraphModel GraphSpec ProposeModel ProposeSpec ProposeProofs PyModel GenModel PySpec GenSpec
  RunModel RunSpec RunProofs RunProofs2 RunProofs3 RunProofs4 RunProofs5.
Local Open Scope Z_scope.

(** The graph of a model, sorted, is one that can be run: if every symbol was made after its predecessors. *)
Theorem C58_graph m : (forall x s, nth_error (p_syms m) x = Some s -> Forall (fun y => (y < x)%nat) (s_pred s) /\ (source_cls (s_cls s) = true -> s_pred s = [])) ->
  exists g, history (build m) = Ok g /\ locked m g.
Proof. exact (@build_locked m). Qed.
Print Assumptions C58_graph.

(** A model whose nodes are within their contracts, and whose symbols have values, does what it stands for. *)
Theorem C58_run strict dbg m g : all_sound strict dbg m -> RunSpec.total m -> locked m g -> faithful strict dbg m g.
Proof. intros H1 H2 H3. exact (run_faithful H1 H2 H3). Qed.
Print Assumptions C58_run.

(** Traveling salesperson: at all times the list is an order of the cities and the objective the length of its tour. *)
Theorem C58_tsp strict dbg n D : (1 <= n)%nat -> (dbg = true -> (2 <= n)%nat) -> Z.of_nat (n * n) < 2147483648 -> matrix n n D -> Forall nonnegative D ->
  exists m g obj, traveling_salesperson D no_model = Ok (0%nat, m) /\ history (build m) = Ok g /\ p_obj m = Some obj /\ faithful strict dbg m g /\
    forall st, running strict dbg m g st -> exists p, Permutation p (seq 0 n) /\ pin_of (nodes strict dbg m) g st 0%nat = Some (still (numbers p)) /\
      pin_of (nodes strict dbg m) g st obj = Some (still [tour D p]).
Proof. exact (@tsp_run strict dbg n D). Qed.
Print Assumptions C58_tsp.

(** Quadratic assignment: the objective is the cost of the assignment in the list. *)
Theorem C58_qap strict dbg n D F : (1 <= n)%nat -> 8 * Z.of_nat (n * n) < 2147483648 -> matrix n n D -> matrix n n F -> Forall nonnegative D -> Forall nonnegative F ->
  exists m g obj, quadratic_assignment D F no_model = Ok (0%nat, m) /\ history (build m) = Ok g /\ p_obj m = Some obj /\ faithful strict dbg m g /\
    forall st, running strict dbg m g st -> exists p, Permutation p (seq 0 n) /\ pin_of (nodes strict dbg m) g st 0%nat = Some (still (numbers p)) /\
      pin_of (nodes strict dbg m) g st obj = Some (still [assignment_cost n D F p]).
Proof. exact (@qap_run strict dbg n D F). Qed.
Print Assumptions C58_qap.

(** Knapsack: the objective is minus the value of the items in the set, and the constraint says whether they fit.  Not
    with [strict]: the index array's length varies. *)
Theorem C58_knapsack dbg n values weights capacity : length values = n -> length weights = n -> Z.of_nat n < 2147483648 -> nonnegative values -> nonnegative weights -> (0 < capacity)%Qc ->
  exists m g obj con, knapsack values weights capacity no_model = Ok (3%nat, m) /\ history (build m) = Ok g /\ p_obj m = Some obj /\ p_cons m = [con] /\ faithful false dbg m g /\
    forall st, running false dbg m g st -> exists items b, NoDup items /\ Forall (fun i => (i < n)%nat) items /\
      pin_of (nodes false dbg m) g st 3%nat = Some (still (numbers items)) /\
      pin_of (nodes false dbg m) g st obj = Some (still [(- GenSpec.total values items)%Qc]) /\
      pin_of (nodes false dbg m) g st con = Some (still [b2q b]) /\ (b = true <-> (GenSpec.total weights items <= capacity)%Qc).
Proof. exact (@knapsack_run dbg n values weights capacity). Qed.
Print Assumptions C58_knapsack.

(** A run: three cities, the order 0 1 2 of initialisation, then cities 0 and 1 exchanged. *)
Definition ex_D : list (list num) := map (map zq) [[0; 2; 3]; [4; 0; 5]; [6; 7; 0]].
Definition ex_m : pym := tsp_pym 3 ex_D.
Definition ex_g : graph := match history (build ex_m) with Ok g => g | _ => g_empty end.
Definition ex_N := nodes true true ex_m.
Definition ex_start : states ex_N := match initialize_all ex_N ex_g (fun _ => None) with Ok st => st | _ => fun _ => None end.
Definition ex_shown (st : states ex_N) (x : nat) : list num := match pin_of ex_N ex_g st x with Some p => pview p | None => [] end.
Example C58_ex_hyps : all_sound true true ex_m /\ RunSpec.total ex_m /\ locked ex_m ex_g.
Proof.
  assert (HD : matrix 3 3 ex_D) by (split; [reflexivity|repeat constructor]).
  assert (H0 : Forall nonnegative ex_D) by (repeat constructor; discriminate).
  split; [apply tsp_sound; [lia|lia|reflexivity|exact HD]|]. split; [apply tsp_total; [lia|reflexivity|exact HD|exact H0]|].
  destruct (C58_graph ex_m) as (g & E & L); [apply orderb_ok; reflexivity|]. unfold ex_g. now rewrite E.
Qed.
Example C58_ex_start : running true true ex_m ex_g ex_start /\ ex_shown ex_start 0%nat = map zq [0; 1; 2] /\ ex_shown ex_start 10%nat = [zq 13].
Proof.
  split; [|split; vm_compute; reflexivity]. apply rn_init with (fun _ => None).
  - intros x s _. destruct (source_cls (s_cls s)); exact I || reflexivity.
  - destruct C58_ex_hyps as (H1 & H2 & H3). destruct (C58_run _ _ _ _ H1 H2 H3) as (Hi & _). destruct (Hi (fun _ => None)) as [st E].
    + intros x s _. destruct (source_cls (s_cls s)); exact I || reflexivity.
    + unfold ex_start. fold ex_N in E. now rewrite E.
Qed.
Definition ex_swap (d : vn_ST (ex_N 0)) : option (vn_ST (ex_N 0)) := c_step (CNode 3 3 3) d (CExchange 0 1).
Definition ex_moved : states ex_N := match ex_start 0%nat with Some d => match ex_swap d with Some d' => sset ex_N ex_start 0 d' | None => ex_start end | None => ex_start end.
Definition ex_after (yes : bool) : states ex_N := match propose true ex_N ex_g (repeat false 11) [0%nat] (fun _ => yes) ex_moved with Ok (_, st) => st | _ => ex_start end.
Example C58_ex_changes : changes true true ex_m ex_g [0%nat] ex_start ex_moved.
Proof.
  split; [constructor; [intros []|constructor]|]. split; [intros x [<-|[]]; vm_compute; auto|]. intros x. split.
  - intros [<-|[]]. destruct (ex_start 0%nat) as [d|] eqn:E; [|vm_compute in E; discriminate]. destruct (ex_swap d) as [d'|] eqn:E'.
    + exists d, d'. split; [reflexivity|]. split; [unfold ex_moved; rewrite E, E'; apply sset_eq|]. apply rt_step. exists (CExchange 0 1). split; [discriminate|]. split; [discriminate|exact E'].
    + exfalso. vm_compute in E. injection E as <-. vm_compute in E'. discriminate.
  - intros Hx. unfold ex_moved. destruct (ex_start 0%nat) as [d|]; [|reflexivity]. destruct (ex_swap d) as [d'|]; [|reflexivity]. apply sset_neq. intros E. apply Hx. left. congruence.
Qed.
Example C58_ex_run : ex_shown (ex_after true) 0%nat = map zq [1; 0; 2] /\ ex_shown (ex_after true) 10%nat = [zq 14] /\
  ex_shown (ex_after false) 0%nat = map zq [0; 1; 2] /\ ex_shown (ex_after false) 10%nat = [zq 13].
Proof. repeat split; vm_compute; reflexivity. Qed.
