(** [capacitated_vehicle_routing] from locations in the plane (dwave/optimization/generators.py). *)
From Verif Require Import Base Num SliceModel PyModel GenModel.
Local Open Scope Z_scope.

(** [np.sqrt((x1 - x0) ** 2 + (y1 - y0) ** 2)], 362, with [root] for [np.sqrt] (any function; the arithmetic before it is exact here). *)
Definition apart (root : num -> num) (p q : num * num) : num :=
  let dx := (fst p - fst q)%Qc in let dy := (snd p - snd q)%Qc in root (dx * dx + dy * dy)%Qc.
(** Which customers there are, and where the depot is: 332-355.  [depot_x_y] is a pair if given. *)
Definition places (demand xs ys : list num) (depot : option (num * num)) : py (list num * list num * list num * (num * num)) :=
  if qeqb (hd 0%Qc demand) 0%Qc then
    do _ <- unless (zlen xs <? 2) ;
    match depot with
    | None => ret (tl demand, tl xs, tl ys, (hd 0%Qc xs, hd 0%Qc ys))
    | Some _ => raise
    end
  else match depot with
       | None => raise
       | Some d => ret (demand, xs, ys, d)
       end.
(** 276-294 and 320-369, then as from distances.  [locations_x] and [locations_y] are vectors of numbers. *)
Definition cvrp_locations (root : num -> num) (demand : list num) (vehicles : nat) (capacity : num) (xs ys : list num) (depot : option (num * num)) : py (nat * list nat) :=
  do _ <- unless (vehicles =? 0)%nat ;
  do _ <- unless (qleb capacity 0%Qc) ;
  do _ <- require_vector demand ;
  do _ <- unless (qltb (zq (Z.of_nat vehicles) * capacity)%Qc (fold_right Qcplus 0%Qc demand)) ;
  do _ <- unless (negb ((zlen xs =? zlen ys) && (zlen ys =? zlen demand))) ;
  do _ <- unless (zlen xs <? 1) ;
  do (cd, cx, cy, (dx, dy)) <- places demand xs ys depot ;
  let ps := combine (map (fun x => x - dx)%Qc cx) (map (fun y => y - dy)%Qc cy) in
  let out := map (fun p => apart root p (0, 0)%Qc) ps in
  cvrp_core cd vehicles capacity (map (fun p => map (apart root p) ps) ps) out out.
