(** Quadratic models from dictionaries of biases, and in model files. *)
From Verif Require Import Base Num SliceModel ShapeModel NodeSpec BinaryModel QuadModel PyModel.
Local Open Scope Z_scope.

(** Conversion of a Python integer to [Py_ssize_t]: [OverflowError] outside of 64 bits. *)
Definition ssize (z : Z) : res Z := if (- 9223372036854775808 <=? z) && (z <? 9223372036854775808) then Ok z else Throw.
(** Assignment of a [Py_ssize_t] to an element of [cdef int[:,::1] coords]: the C conversion to [int], which keeps the low 32 bits. *)
Definition intc (z : Z) : Z := (z + 2147483648) mod 4294967296 - 2147483648.

(** The loop [for v, bias in linear.items(): ldata[v] += bias], symbols.pyx:2652-2662.  Bounds are checked and negative indices do not
    wrap around ([@cython.wraparound(False)], 2643): [IndexError].  A dictionary is the list of its items; that keys are distinct is not used. *)
Definition lin_entry (n : nat) (l : list num) (e : Z * num) : res (list num) :=
  rbind (ssize (fst e)) (fun v =>
  if (0 <=? v) && (v <? Z.of_nat n) then rbind (rget l (Z.to_nat v)) (fun b => Ok (lset (Z.to_nat v) (b + snd e)%Qc l)) else Throw).
Definition lin_entries (n : nat) (linear : list (Z * num)) : res (list num) := rfold (lin_entry n) (repeat 0%Qc n) linear.
(** The loop [for (u, v), bias in quadratic.items()], 2668-2679. *)
Definition quad_entry (l : list (Z * Z * num)) (t : Z * Z * num) : res (list (Z * Z * num)) :=
  rbind (ssize (fst (fst t))) (fun u => rbind (ssize (snd (fst t))) (fun v => Ok (l ++ [(intc u, intc v, snd t)]))).
Definition quad_entries (quad : list (Z * Z * num)) : res (list (Z * Z * num)) := rfold quad_entry [] quad.
(** [QuadraticModel.__init__] with a dictionary, 2561-2571, and [_init_from_qubo], 2643-2681.  [logical]: as for [quadratic_model]. *)
Definition quadratic_dict (logical : bool) (x : nat) (quad : list (Z * Z * num)) (linear : list (Z * num)) : py nat :=
  do s <- look x ;
  if dynamic (s_shape s) then raise
  else match s_shape s with
  | [n] =>
      if n <? 1 then raise
      else do lin <- lift (lin_entries (Z.to_nat n) linear) ;
           do q <- lift (quad_entries quad) ;
           quadratic_model logical x q lin
  | _ => raise
  end.

(** [QuadraticModel.get_linear], [get_quadratic], 2693-2706: [ValueError] out of range. *)
Definition sym_linear (q : qmodel) (v : Z) : res num := if (0 <=? v) && (v <? Z.of_nat (qm_n q)) then get_linear q (Z.to_nat v) else Throw.
Definition sym_quadratic (q : qmodel) (u v : Z) : res num :=
  if (0 <=? u) && (u <? Z.of_nat (qm_n q)) then
    if (0 <=? v) && (v <? Z.of_nat (qm_n q)) then get_quadratic q (Z.to_nat u) (Z.to_nat v) else Throw
  else Throw.

(** What [_into_zipfile], 2727-2764, stores as "quadratic.npy" and "coords.npy": the squares, then the interactions,
    with coordinates of type [int]; and as "linear.npy". *)
Definition stored_quad (q : qmodel) : res (list (Z * Z * num)) :=
  rbind (rfold (fun l i => rbind (get_quadratic q i i) (fun b => Ok (l ++ [(intc (Z.of_nat i), intc (Z.of_nat i), b)]))) [] (seq 0 (qm_n q))) (fun l =>
  Ok (l ++ map (fun t => (intc (Z.of_nat (fst (fst t))), intc (Z.of_nat (snd (fst t))), snd t)) (get_quadratics q))).
Definition stored_lin (q : qmodel) : res (list num) :=
  rfold (fun l i => rbind (get_linear q i) (fun b => Ok (l ++ [b]))) [] (seq 0 (qm_n q)).
(** [_from_zipfile], 2708-2725: the constructor, with coordinates. *)
Definition reloaded (logical : bool) (x : nat) (q : qmodel) : py nat :=
  do quad <- lift (stored_quad q) ; do lin <- lift (stored_lin q) ; quadratic_model logical x quad lin.
