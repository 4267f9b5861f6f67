(** When two symbols are alike, and when their types and shapes tell them apart. *)
From Verif Require Import Base Num StateDataModel BoundsModel NodeSpec PyModel PySpec EqModel.

(** Built alike: the same operation, with the same parameters, of symbols built alike. *)
Inductive alike (m m' : pym) : nat -> nat -> Prop :=
| al x y s t : nth_error (p_syms m) x = Some s -> nth_error (p_syms m') y = Some t ->
    s_cls s = s_cls t -> s_shape s = s_shape t -> Forall2 (alike m m') (s_pred s) (s_pred t) -> alike m m' x y.

(** [a] is [x] or among what it is computed from. *)
Inductive reach (m : pym) : nat -> nat -> Prop :=
| re_here x : reach m x x
| re_there x s p a : nth_error (p_syms m) x = Some s -> In p (s_pred s) -> reach m p a -> reach m x a.

(** Among what [x] and [y] are computed from, symbols of one type and shape are the same operation with the same
    parameters, except constants; and no two decisions are of one type and shape. *)
Definition told_apart (same : bool) (m m' : pym) (x y : nat) : Prop :=
  forall a b s t, reach m x a -> reach m' y b -> nth_error (p_syms m) a = Some s -> nth_error (p_syms m') b = Some t ->
    type_of (s_cls s) = type_of (s_cls t) -> s_shape s = s_shape t -> type_of (s_cls s) <> TConst ->
    s_cls s = s_cls t /\ (decided_cls (s_cls s) = true -> same = true /\ a = b).

(** A model with [n] symbols above the constant 1, each twice the one before. *)
Definition doubling (n : nat) : pym :=
  Pym (Sym (KConst [zq 1]) [] [1%Z] true :: map (fun i => Sym (KBin BPlus) [i; i] [1%Z] true) (seq 0 n)) None [].

(** What [x] is computed from, as a tree, is finite. *)
Inductive finite (m : pym) : nat -> Prop :=
| fi x s : nth_error (p_syms m) x = Some s -> Forall (finite m) (s_pred s) -> finite m x.
