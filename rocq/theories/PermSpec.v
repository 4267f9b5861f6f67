(** Reordering a square array, independently of the code; and nodes that are correct for predecessors
    satisfying a further condition. *)
From Verif Require Import Base ShapeSpec StateDataModel NodeSpec Num.

(** All multi-indices of a shape, in row-major order. *)
Fixpoint all_idx (shape : list Z) : list (list Z) :=
  match shape with
  | [] => [[]]
  | d :: s => flat_map (fun i => map (cons (Z.of_nat i)) (all_idx s)) (seq 0 (Z.to_nat d))
  end.

(** The whole number in [0, n) that a value is, if it is one. *)
Definition below (n : nat) (x : Qc) : option nat := find (fun i => qeqb x (zq (Z.of_nat i))) (seq 0 n).

(** Element [(i, j, ...)] is element [(order i, order j, ...)] of the array. *)
Definition perm_fun (n k : nat) (ins : list (list Qc)) : option (list Qc) :=
  match ins with
  | [a; o] =>
      match all_some (map (below n) o) with
      | Some zs => if (length a =? n ^ k) && (length zs =? n)
                   then Some (map (fun idx => nth (Z.to_nat (rank (repeat (Z.of_nat n) k)
                                (map (fun i => Z.of_nat (nth (Z.to_nat i) zs 0)) idx))) a 0%Qc) (all_idx (repeat (Z.of_nat n) k)))
                   else None
      | None => None
      end
  | _ => None
  end.

(** As [node_ok], for moves in which the predecessors also satisfy [P]. *)
Record node_ok_if {V} (veqb : V -> V -> bool) (P : list (pin V) -> Prop) (N : node V) (F : list (list V) -> option (list V)) : Prop := {
  nki_ok : exists clean : list (list V) -> nd_ST N -> Prop,
    (forall ins v, Forall2 fits (nd_pre N) ins -> F ins = Some v ->
       fits (nd_shape N) v /\ exists s, nd_init N (map still ins) = Ok s /\ clean ins s) /\
    (forall ins s, clean ins s -> exists v, F ins = Some v /\ nd_out N s (map still ins) = Some (still v)) /\
    (forall ins s v pins v', clean ins s -> F ins = Some v ->
       Forall2 (fun si p => pin_ok veqb (fst si) (snd si) p) (combine (nd_pre N) ins) pins ->
       length (nd_pre N) = length ins -> P pins -> F (map pview pins) = Some v' ->
       exists s', nd_prop N s pins = Ok s' /\
         (exists p, nd_out N s' pins = Some p /\ pview p = v' /\ pin_ok veqb (nd_shape N) v p) /\
         clean (map pview pins) (nd_commit N s') /\
         exists s'', nd_revert N s' = Ok s'' /\ clean ins s'') }.

(** The order only ever takes values in [0, n), also within a move, and the array does not change. *)
Definition perm_moves (n : nat) (pins : list (pin Qc)) : Prop :=
  match pins with
  | [pa; po] => pdiff pa = [] /\
      Forall (fun u => forall x, uold u = Some x \/ uval u = Some x -> below n x <> None) (pdiff po)
  | _ => False
  end.
