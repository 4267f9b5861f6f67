(** Model of [Slice]: include/dwave-optimization/array.hpp:71-171.  [ssize_t] is 64-bit two's
    complement; signed overflow is undefined behaviour ([UB]), unsigned arithmetic wraps. *)
From Verif Require Import Base.
Local Open Scope Z_scope.

(** array.hpp:77-78. *)
Definition SMAX : Z := 9223372036854775807.
Definition SMIN : Z := -9223372036854775808.
Definition UMOD : Z := 18446744073709551616.

Record slice := Slice { sstart : Z; sstop : Z; sstep : Z }.

Definition value_or (o : option Z) (d : Z) : Z := match o with Some z => z | None => d end.

(** The three-argument constructor, array.hpp:75-86. *)
Definition mk_slice (start stop step : option Z) : res slice :=
  let st := value_or step 1 in
  if st =? 0 then Throw
  else Ok (Slice (value_or start (if st <? 0 then SMAX else 0))
                 (value_or stop (if st <? 0 then SMIN else SMAX)) st).

(** [Slice()] and [empty], array.hpp:72, 89-97. *)
Definition slice_eqb (a b : slice) : bool :=
  (sstart a =? sstart b) && (sstop a =? sstop b) && (sstep a =? sstep b).
Definition slice_empty (s : slice) : bool := slice_eqb s (Slice 0 SMAX 1).

(** One bound of [fit], array.hpp:114-125 and 127-138 (the two blocks are the same code). *)
Definition fit_bound (b step size : Z) : Z :=
  if b <? 0 then
    let b := b + size in
    if b <? 0 then (if step <? 0 then -1 else 0) else b
  else if size <=? b then (if step <? 0 then size - 1 else size)
  else b.

(** [fit], array.hpp:109-141.  The closing call to the constructor throws for a zero step. *)
Definition fit (s : slice) (size : Z) : res slice :=
  mk_slice (Some (fit_bound (sstart s) (sstep s) size))
           (Some (fit_bound (sstop s) (sstep s) size)) (Some (sstep s)).

(** [fit_at], array.hpp:100-105. *)
Definition fit_at (s : slice) (size : Z) : res slice :=
  if size <? 0 then Throw else if sstep s =? 0 then Throw else fit s size.

(** Signed operation: UB when the result leaves [ssize_t]. *)
Definition schk (z : Z) : res Z := if (SMIN <=? z) && (z <=? SMAX) then Ok z else UB.
Definition rbind {A B} (r : res A) (f : A -> res B) : res B :=
  match r with Ok a => f a | Throw => Throw | UB => UB end.

(** [size], array.hpp:146-166.  Result is a [size_t]. *)
Definition slice_size (s : slice) : res Z :=
  if sstep s <? 0 then
    if sstop s <? sstart s then
      rbind (schk (- sstep s)) (fun nstep =>
      if 0 <? sstart s
      then Ok (((sstart s - sstop s - 1) mod UMOD) / nstep + 1)
      else rbind (schk (sstart s - sstop s)) (fun d =>
           rbind (schk (d - 1)) (fun d => Ok (Z.quot d nstep + 1))))
    else Ok 0
  else
    if sstart s <? sstop s then
      if 0 <? sstop s
      then Ok (((sstop s - sstart s - 1) mod UMOD) / sstep s + 1)
      else rbind (schk (sstop s - sstart s)) (fun d =>
           rbind (schk (d - 1)) (fun d => Ok (Z.quot d (sstep s) + 1)))
    else Ok 0.

(** The indices visited by the loops that consume a fitted slice, e.g. indexing.cpp:975-1010:
    start, start + step, ... ([size] of them). *)
Definition slice_indices (s : slice) (n : Z) : list Z :=
  map (fun i => sstart s + Z.of_nat i * sstep s) (seq 0 (Z.to_nat n)).
