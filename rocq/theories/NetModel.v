(** Model of what a model tells about its graph: [Model.to_networkx] (dwave/optimization/model.py:456-489), [num_edges] (dwave/optimization/_model.pyx:520-523). *)
From Verif Require Import Base GraphModel.
From Coq Require Import String.
Local Open Scope string_scope.

(** [networkx.MultiDiGraph]: its nodes in order of insertion and its edges (of one pair in order of insertion; the order between pairs is not observed). *)
Record nx := NX { nx_nodes : list string; nx_edges : list (string * string) }.
(** [MultiDiGraph.add_node]: nothing if it is there already. *)
Definition nx_node (G : nx) (u : string) : nx := if existsb (String.eqb u) (nx_nodes G) then G else NX (nx_nodes G ++ [u]) (nx_edges G).
(** [MultiDiGraph.add_edge]: always a further one; the ends are added if need be. *)
Definition nx_edge (G : nx) (u v : string) : nx := let G' := nx_node (nx_node G u) v in NX (nx_nodes G') (nx_edges G' ++ [(u, v)]).
(** [G.add_edge(repr(symbol), repr(successor))], 472-473; making the symbol of a destructed node is undefined. *)
Definition nx_successor (repr : nat -> string) (g : graph) (n : nat) (G : nx) (m : nat) : res nx :=
  if alive g m then Ok (nx_edge G (repr n) (repr m)) else UB.
(** [to_networkx], 456-489.  [repr]: [Symbol.__repr__] of the node (_model.pyx:668-675).  [self.objective] is taken to be that of the graph: [Model.minimize] sets both, 349-354. *)
Definition to_networkx (repr : nat -> string) (g : graph) : res nx :=
  let G0 := fold_left nx_node (map repr (gnodes g)) (NX [] []) in
  if negb (List.length (nx_nodes G0) =? List.length (gnodes g))%nat then Throw else
  match rfold (fun G n => rfold (nx_successor repr g n) G (oget (gsucc g) n)) G0 (gnodes g) with
  | Ok G1 =>
      if negb (List.length (nx_nodes G1) =? List.length (gnodes g))%nat then Throw else
      let G2 := match gobj g with Some o => nx_edge G1 (repr o) "minimize" | None => G1 end in
      Ok (fold_left (fun G c => nx_edge G (repr c) "constraint(s)") (gcons g) G2)
  | Throw => Throw
  | UB => UB
  end.
(** [num_edges], _model.pyx:520-523. *)
Definition num_edges (g : graph) : nat := fold_left (fun k n => k + List.length (oget (gsucc g) n))%nat (gnodes g) 0.
