(** Reductions of a list of numbers. *)
From Verif Require Import Base Num NarySpec ReduceModel.

(** [x] is the reduction of the elements [e] (the initial value, if any, is one of them). *)
Definition reduces_to (o : rop) (e : list Qc) (x : Qc) : Prop :=
  match o with
  | RAdd => x = qsum_of e
  | RMul => x = qprod_of e
  | RMax => is_max x e
  | RMin => is_min x e
  | RAnd => (x = 1%Qc /\ forall y, In y e -> y <> 0%Qc) \/ (x = 0%Qc /\ exists y, In y e /\ y = 0%Qc)
  | ROr => (x = 1%Qc /\ exists y, In y e /\ y <> 0%Qc) \/ (x = 0%Qc /\ forall y, In y e -> y = 0%Qc)
  end.

Definition olist {A} (o : option A) : list A := match o with Some x => [x] | None => [] end.

(** The identity elements used when no initial value is given. *)
Definition identity_of (o : rop) : option Qc :=
  match o with RAnd | RMul => Some 1%Qc | ROr | RAdd => Some 0%Qc | RMax | RMin => None end.

(** The reduction as a function, [None] for the extremum of nothing. *)
Definition red_fun (o : rop) (init : option Qc) (ins : list (list Qc)) : option (list Qc) :=
  match ins with
  | [l] =>
      match olist init ++ l with
      | [] => None
      | x :: t =>
          Some [match o with
                | RAdd => qsum_of (x :: t)
                | RMul => qprod_of (x :: t)
                | RMax => fold_left qmax t x
                | RMin => fold_left qmin t x
                | RAnd => b2q (forallb q2b (x :: t))
                | ROr => b2q (existsb q2b (x :: t))
                end]
      end
  | _ => None
  end.
