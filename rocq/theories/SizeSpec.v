(** What declared sizes mean. *)
From Verif Require Import Base SliceModel ArithModel ArithSpec SizeModel Num.
Local Open Scope Z_scope.

(** The sizes [sz] the arrays of [ctx] can take together. *)
Definition sized (ctx : nat -> option arr) (sz : nat -> Z) : Prop :=
  forall id a, ctx id = Some a -> 0 <= sz id <= SMAX /\
  match a with
  | AFixed n => sz id = n
  | AOwn mn mx => (forall x, mn = Some x -> x <= sz id) /\ (forall x, mx = Some x -> sz id <= x)
  | ADefault p | AScalarOp p => sz id = sz p
  | AGather p k => sz id = sz p * k
  | ASlice p s prow row => exists rows f n, sz p = rows * prow /\ fit s rows = Ok f /\ slice_size f = Ok n /\ sz id = n * row
  end.

(** A size information states [s]: a multiple of the size of an array plus an offset, cut to the
    declared minimum (at least 0) and then to the declared maximum. *)
Definition declares (sz : nat -> Z) (i : sizeinfo) (s : Z) : Prop :=
  exists p x, si_ptr i = Some p /\ (fval (si_mult i) * zq (sz p) + zq (si_off i))%Qc = zq x /\
    let low := Z.max (Z.max 0 (match si_min i with Some m => m | None => 0 end)) x in
    s = match si_max i with Some m => Z.min m low | None => low end.

(** Arrays obtained from a decision (of any size from 0 upwards) by cutting elements off its ends... *)
Inductive trimmed (ctx : nat -> option arr) : nat -> Prop :=
| T_own id mx : ctx id = Some (AOwn (Some 0) mx) -> trimmed ctx id
| T_default id : ctx id = Some (AOwn None None) -> trimmed ctx id
| T_scalar id p : ctx id = Some (AScalarOp p) -> trimmed ctx p -> trimmed ctx id
| T_gather id p : ctx id = Some (AGather p 1) -> trimmed ctx p -> trimmed ctx id
| T_slice id p a b : ctx id = Some (ASlice p (Slice a b 1) 1 1) -> 0 <= a <= SMAX -> (b = SMAX \/ - SMAX <= b < 0) ->
    trimmed ctx p -> trimmed ctx id.
(** ... or by keeping at most so many elements at its beginning or end. *)
Inductive headed (ctx : nat -> option arr) : nat -> Prop :=
| H_own id mn mx : ctx id = Some (AOwn mn mx) -> (forall a b, mn = Some a -> mx = Some b -> a <= b) ->
    (forall a, mn = Some a -> 0 <= a <= SMAX) -> headed ctx id
| H_scalar id p : ctx id = Some (AScalarOp p) -> headed ctx p -> headed ctx id
| H_gather id p : ctx id = Some (AGather p 1) -> headed ctx p -> headed ctx id
| H_slice id p a b : ctx id = Some (ASlice p (Slice a b 1) 1 1) ->
    ((a = 0 /\ 0 < b <= SMAX) \/ (- SMAX <= a < 0 /\ b = SMAX)) -> headed ctx p -> headed ctx id.
