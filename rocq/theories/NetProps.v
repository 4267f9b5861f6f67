(** C70: the graph a model shows.  Modelled in [NetModel.v]. *)
From Verif Require Import Base GraphModel GraphSpec GraphProps NetModel NetSpec NetProofs.
From Coq Require Import String.
Local Open Scope string_scope.

(** However the model was built: its export succeeds; has its nodes in their order, and the special ones if there is an objective or a constraint; as many edges between two nodes as the first is an operand
    of the second; one edge from the objective and one per added constraint to the special nodes; and no others. *)
Theorem C70_export ops g repr : history ops = Ok g -> names repr g -> exists G, to_networkx repr g = Ok G /\
  nx_nodes G = (map repr (gnodes g) ++ (match gobj g with Some _ => ["minimize"] | None => [] end) ++ (match gcons g with [] => [] | _ => ["constraint(s)"] end))%list /\
  (forall p n, In p (gnodes g) -> In n (gnodes g) -> times (repr p) (repr n) (nx_edges G) = occ p (oget (gpred g) n)) /\
  (forall p, In p (gnodes g) -> times (repr p) "minimize" (nx_edges G) = (match gobj g with Some o => if o =? p then 1 else 0 | None => 0 end)%nat /\ times (repr p) "constraint(s)" (nx_edges G) = occ p (gcons g)) /\
  (forall u v, In (u, v) (nx_edges G) -> exists p, In p (gnodes g) /\ u = repr p /\ (v = "minimize" \/ v = "constraint(s)" \/ exists n, In n (gnodes g) /\ v = repr n)) /\
  List.length (nx_edges G) = (num_edges g + (match gobj g with Some _ => 1 | None => 0 end) + List.length (gcons g))%nat.
Proof. exact (@export_ok ops g repr). Qed.
Print Assumptions C70_export.
(** The number of edges is that of operands. *)
Theorem C70_num_edges ops g : history ops = Ok g -> num_edges g = operands g.
Proof. exact (@edges_operands ops g). Qed.
Print Assumptions C70_num_edges.
(** Names that are not unique are noticed. *)
Theorem C70_names ops g repr n m : history ops = Ok g -> In n (gnodes g) -> In m (gnodes g) -> n <> m -> repr n = repr m -> to_networkx repr g = Throw.
Proof. exact (@export_names ops g repr n m). Qed.
Print Assumptions C70_names.
(** After a refused node that had registered with an operand already (C49) the export follows a pointer to a destructed node, and the number of edges is wrong. *)
Theorem C70_refused_node_refuted : exists ops g ok preds g', history ops = Ok g /\ emplace_incremental g ok preds = Ok (g', false) /\ gnodes g' = gnodes g /\
  (forall repr, names repr g -> to_networkx repr g' = UB) /\ num_edges g' <> operands g'.
Proof.
  exists [GDecision; GAdd true [0]], (match history [GDecision; GAdd true [0]] with Ok g => g | _ => g_empty end), (fun p => negb (p =? 0)%nat), [1; 0].
  eexists. split; [vm_compute; reflexivity|]. split; [vm_compute; reflexivity|]. split; [reflexivity|]. split; [|vm_compute; discriminate].
  intros repr [Inj _]. assert (D : repr 0 <> repr 1) by (intros E; apply Inj in E; [discriminate E|vm_compute; tauto|vm_compute; tauto]).
  assert (E : String.eqb (repr 1) (repr 0) = false) by (apply String.eqb_neq; congruence).
  unfold to_networkx. cbn [gnodes map fold_left]. unfold nx_node at 2. cbn [nx_nodes existsb]. unfold nx_node at 1. cbn [nx_nodes nx_edges app existsb]. rewrite E. cbn [orb nx_nodes app List.length Nat.eqb negb]. reflexivity.
Qed.
Print Assumptions C70_refused_node_refuted.

Fixpoint ex_name (n : nat) : string := match n with O => "<" | S k => "a" ++ ex_name k end.
(** The running example of [GraphProps.v]: 3 is read twice by 4. *)
Example C70_ex : history (ex_ops ++ [GSort]) = Ok ex_gs /\ names ex_name ex_gs /\ num_edges ex_gs = 8 /\
  match to_networkx ex_name ex_gs with Ok G => times (ex_name 3) (ex_name 4) (nx_edges G) = 2 /\ List.length (nx_edges G) = 10 | _ => False end.
Proof.
  split; [apply ex_gs_ok|]. split; [|split; [reflexivity|vm_compute; tauto]]. split.
  - intros n m _ _. revert m. induction n as [|n IH]; intros [|m] E; try discriminate; [reflexivity|]. injection E as E. f_equal. now apply IH.
  - intros [|n]; split; discriminate.
Qed.
Example C70_names_ex : In 0 (gnodes ex_gs) /\ In 1 (gnodes ex_gs) /\ to_networkx (fun _ => "x") ex_gs = Throw.
Proof. vm_compute. tauto. Qed.
