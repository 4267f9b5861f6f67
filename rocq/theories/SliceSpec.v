(** Python's slice semantics (Language Reference, "Sequence Types", notes 3-5), written without the
    model's clipping function. *)
From Verif Require Import Base.
Local Open Scope Z_scope.

(** A bound counts from the end when negative. *)
Definition py_norm (n b : Z) : Z := if b <? 0 then b + n else b.

(** First candidate position. *)
Definition py_first (n : Z) (start : option Z) (step : Z) : Z :=
  match start with
  | None => if 0 <? step then 0 else n - 1
  | Some b => if 0 <? step then Z.max 0 (py_norm n b) else Z.min (n - 1) (py_norm n b)
  end.

(** Position [x] lies before the stop bound (in walking direction); an absent bound never stops. *)
Definition py_before_stop (n : Z) (stop : option Z) (step x : Z) : Prop :=
  match stop with
  | None => True
  | Some b => if 0 <? step then x < py_norm n b else py_norm n b < x
  end.

(** [x] is an index of [seq[start:stop:step]] for a sequence of length [n]. *)
Definition py_selects (n : Z) (start stop : option Z) (step x : Z) : Prop :=
  0 <= x < n /\ py_before_stop n stop step x /\
  exists m, 0 <= m /\ x = py_first n start step + m * step.

(** [l] lists its members in walking direction, without repetition. *)
Definition walks (step : Z) (l : list Z) : Prop :=
  forall i j x y, (i < j)%nat -> nth_error l i = Some x -> nth_error l j = Some y ->
    if 0 <? step then x < y else y < x.

Definition ssize (z : Z) : Prop := -9223372036854775808 <= z <= 9223372036854775807.
Definition ossize (o : option Z) : Prop := match o with Some z => ssize z | None => True end.
