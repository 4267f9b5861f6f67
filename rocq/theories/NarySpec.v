(** Elementwise reduction of several arrays of the same size. *)
From Verif Require Import Base Num.

Section NarySpec.
Context {V : Type}.
Variable func : V -> V -> V.
Definition zip_with (a b : list V) : list V := map (fun p => func (fst p) (snd p)) (combine a b).
Definition nary_fun (n : nat) (ins : list (list V)) : option (list V) :=
  match ins with
  | [] => None
  | a :: rest =>
      if (length ins =? n) && forallb (fun b => length b =? length a) rest
      then Some (fold_left (fun acc b => zip_with b acc) rest a) else None
  end.
End NarySpec.

(** Sum, product, maximum and minimum of the numbers [l] (at least one). *)
Fixpoint qsum_of (l : list Qc) : Qc := match l with [] => 0%Qc | x :: t => (x + qsum_of t)%Qc end.
Fixpoint qprod_of (l : list Qc) : Qc := match l with [] => 1%Qc | x :: t => (x * qprod_of t)%Qc end.
Definition is_max (m : Qc) (l : list Qc) : Prop := In m l /\ forall x, In x l -> (x <= m)%Qc.
Definition is_min (m : Qc) (l : list Qc) : Prop := In m l /\ forall x, In x l -> (m <= x)%Qc.
