(** Instances of vehicle routing in the plane. *)
From Verif Require Import Base Num NarySpec.
Local Open Scope Z_scope.

(** The table of distances between points, [root] of the sum of the squares of the differences. *)
Definition distances (root : num -> num) (ps : list (num * num)) : list (list num) :=
  map (fun p => map (fun q => root ((fst p - fst q) * (fst p - fst q) + (snd p - snd q) * (snd p - snd q))%Qc) ps) ps.
(** The depot at [p0] is either the first location, with demand 0, or given apart; [d] and [ps] are the demands and locations of the customers. *)
Definition located (demand xs ys : list num) (depot : option (num * num)) (d : list num) (p0 : num * num) (ps : list (num * num)) : Prop :=
  length d = length ps /\
  ((depot = None /\ demand = 0%Qc :: d /\ xs = map fst (p0 :: ps) /\ ys = map snd (p0 :: ps)) \/
   (depot = Some p0 /\ demand = d /\ xs = map fst ps /\ ys = map snd ps)).
