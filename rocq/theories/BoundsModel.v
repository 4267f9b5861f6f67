(** Models of the declared bounds [min()], [max()] and [integral()] of the operations in
    src/nodes/mathematical.cpp.  Simplifications: exact arithmetic in place of doubles; a quotient by zero
    (infinite or NaN) is undefined. *)
From Verif Require Import Base SliceModel Num ArithModel NaryModel ReduceModel.

(** What an array declares, array.hpp:784-790. *)
Record bnd := Bnd { b_min : Qc; b_max : Qc; b_int : bool }.
(** [std::numeric_limits<double>::max()]: the default [Array::max()], array.hpp:785; the default minimum is
    its negative, 784. *)
Definition DMAX : Qc := zq ((2 ^ 53 - 1) * 2 ^ 971).

(** [std::max] and [std::min] of a list of four. *)
Definition max4 (a b c d : Qc) : Qc := qmax (qmax (qmax a b) c) d.
Definition min4 (a b c d : Qc) : Qc := qmin (qmin (qmin a b) c) d.

(** * Binary operations, the instantiations 422-437 *)
Inductive bop := BPlus | BMinus | BMul | BDiv | BMod | BEq | BLe | BAnd | BOr | BXor | BMax | BMin.
(** Results of type [bool]. *)
Definition bop_bool (o : bop) : bool := match o with BEq | BLe | BAnd | BOr | BXor => true | _ => false end.
Definition bop_func (o : bop) (x y : Qc) : option Qc :=
  match o with
  | BPlus => Some (x + y)%Qc | BMinus => Some (x - y)%Qc | BMul => Some (x * y)%Qc
  | BDiv => if qeqb y 0 then None else Some (x / y)%Qc
  | BMod => Some (modulus x y)
  | BEq => Some (b2q (qeqb x y)) | BLe => Some (b2q (qleb x y))
  | BAnd => Some (b2q (q2b x && q2b y)) | BOr => Some (b2q (q2b x || q2b y)) | BXor => Some (b2q (xorb (q2b x) (q2b y)))
  | BMax => Some (qmax x y) | BMin => Some (qmin x y)
  end.
(** The constructor's condition on the divisor, 43-49. *)
Definition bin_new (o : bop) (rhs : bnd) : res unit :=
  match o with
  | BDiv => let strictly_negative := qltb (b_min rhs) 0 && qltb (b_max rhs) 0 in
            let strictly_positive := qltb 0 (b_min rhs) && qltb 0 (b_max rhs) in
            if negb strictly_negative && negb strictly_positive then Throw else Ok tt
  | _ => Ok tt
  end.
(** [integral], 121-147. *)
Definition bin_integral (o : bop) (lhs rhs : bnd) : bool :=
  if bop_bool o then true else
  match o with BDiv => false | _ => b_int lhs && b_int rhs end.
(** The quotients of the bounds. *)
Definition quots (f : Qc -> Qc -> Qc -> Qc -> Qc) (lhs rhs : bnd) : res Qc :=
  if qeqb (b_min rhs) 0 || qeqb (b_max rhs) 0 then UB else
  Ok (f (b_min lhs / b_min rhs) (b_min lhs / b_max rhs) (b_max lhs / b_min rhs) (b_max lhs / b_max rhs))%Qc.
Definition prods (f : Qc -> Qc -> Qc -> Qc -> Qc) (lhs rhs : bnd) : Qc :=
  (f (b_min lhs * b_min rhs) (b_min lhs * b_max rhs) (b_max lhs * b_min rhs) (b_max lhs * b_max rhs))%Qc.
(** [max], 150-204.  [dbg]: with the assertions of 171-174. *)
Definition bin_max (dbg : bool) (o : bop) (lhs rhs : bnd) : res Qc :=
  if bop_bool o then Ok 1%Qc else
  match o with
  | BDiv => if dbg && (qeqb (b_min lhs) 0 || qeqb (b_max lhs) 0 || qeqb (b_min rhs) 0 || qeqb (b_max rhs) 0) then UB
            else quots max4 lhs rhs
  | BMax => Ok (qmax (b_max lhs) (b_max rhs)) | BMin => Ok (qmin (b_max lhs) (b_max rhs)) | BPlus => Ok (b_max lhs + b_max rhs)%Qc
  | BMinus => Ok (b_max lhs - b_min rhs)%Qc
  | BMod => let pos_max := b_max rhs in let neg_max := (- b_min rhs)%Qc in Ok (if qltb pos_max neg_max then neg_max else pos_max)
  | BMul => Ok (prods max4 lhs rhs)
  | _ => UB
  end.
(** [min], 206-258. *)
Definition bin_min (o : bop) (lhs rhs : bnd) : res Qc :=
  if bop_bool o then Ok 0%Qc else
  match o with
  | BDiv => quots min4 lhs rhs
  | BMax => Ok (qmax (b_min lhs) (b_min rhs)) | BMin => Ok (qmin (b_min lhs) (b_min rhs)) | BPlus => Ok (b_min lhs + b_min rhs)%Qc
  | BMinus => Ok (b_min lhs - b_max rhs)%Qc
  | BMod => let neg_min := b_min rhs in let pos_min := (- b_max rhs)%Qc in Ok (if qltb pos_min neg_min then pos_min else neg_min)
  | BMul => Ok (prods min4 lhs rhs)
  | _ => UB
  end.

(** * Unary operations, the instantiations 1915-1920 *)
Inductive uop := UAbs | ULogical | USquare | USqrt | UNegate | UNot.
Definition uop_bool (o : uop) : bool := match o with ULogical | UNot => true | _ => false end.
Section Unary.
(** [std::sqrt]. *)
Variable root : Qc -> Qc.
Definition uop_func (o : uop) (x : Qc) : Qc :=
  match o with
  | UAbs => qabs x | ULogical => b2q (q2b x) | USquare => (x * x)%Qc | USqrt => root x | UNegate => (- x)%Qc | UNot => b2q (negb (q2b x))
  end.
(** Constructor, 1711-1720. *)
Definition un_new (o : uop) (a : bnd) : res unit :=
  match o with USqrt => if qltb (b_min a) 0 then Throw else Ok tt | _ => Ok tt end.
(** [integral], 1753-1774. *)
Definition un_integral (o : uop) (a : bnd) : bool :=
  match o with UAbs | UNegate | USquare => b_int a | ULogical | UNot => true | USqrt => false end.
(** [max], 1776-1824.  The comparison of [abs(max)] with the root of the largest double (1800) is one of squares. *)
Definition un_max (dbg : bool) (o : uop) (a : bnd) : res Qc :=
  match o with
  | UAbs =>
      if dbg && qltb (b_max a) (b_min a) then UB else
      if qleb 0 (b_min a) && qleb 0 (b_max a) then Ok (b_max a)
      else if qleb 0 (b_min a) then UB
      else if qleb 0 (b_max a) then Ok (qmax (b_max a) (- b_min a))
      else Ok (- b_min a)%Qc
  | UNegate => Ok (- b_min a)%Qc
  | USquare => if qleb DMAX (b_max a * b_max a) then Ok DMAX else Ok (b_max a * b_max a)%Qc
  | USqrt => if dbg && qltb (b_max a) 0 then UB else Ok (root (b_max a))
  | ULogical | UNot => Ok 1%Qc
  end.
(** [min], 1826-1871. *)
Definition un_min (dbg : bool) (o : uop) (a : bnd) : res Qc :=
  match o with
  | UAbs =>
      if dbg && qltb (b_max a) (b_min a) then UB else
      if qleb 0 (b_min a) && qleb 0 (b_max a) then Ok (b_min a)
      else if qleb 0 (b_min a) then UB
      else if qleb 0 (b_max a) then Ok 0%Qc
      else Ok (- b_max a)%Qc
  | UNegate => Ok (- b_max a)%Qc
  | USquare => if qleb DMAX (b_min a * b_min a) then Ok DMAX else Ok (b_min a * b_min a)%Qc
  | USqrt => if dbg && qltb (b_min a) 0 then UB else Ok (root (b_min a))
  | ULogical | UNot => Ok 0%Qc
  end.
End Unary.

(** * Operations on several arrays, the instantiations 762-765 ([nop] of NaryModel) *)
(** [integral], 531-547. *)
Definition nary_integral (l : list bnd) : bool := forallb b_int l.
(** The loops 573-591 and 624-642: lowest and highest product so far. *)
Definition nary_prod1 (lhs : Qc * Qc) (b : bnd) : Qc * Qc :=
  let a := Bnd (fst lhs) (snd lhs) false in (prods min4 a b, prods max4 a b).
(** [max], 549-598. *)
Definition nary_max (o : nop) (l : list bnd) : res Qc :=
  match o, l with
  | NAdd, _ => Ok (fold_left (fun lhs b => lhs + b_max b)%Qc l 0%Qc)
  | _, [] => UB
  | NMax, b :: t => Ok (fold_left (fun lhs b => qmax lhs (b_max b)) t (b_max b))
  | NMin, b :: t => Ok (fold_left (fun lhs b => qmin lhs (b_max b)) t (b_max b))
  | NMul, b :: t => Ok (snd (fold_left nary_prod1 t (b_min b, b_max b)))
  end.
(** [min], 600-649. *)
Definition nary_min (o : nop) (l : list bnd) : res Qc :=
  match o, l with
  | NAdd, _ => Ok (fold_left (fun lhs b => lhs + b_min b)%Qc l 0%Qc)
  | _, [] => UB
  | NMax, b :: t => Ok (fold_left (fun lhs b => qmax lhs (b_min b)) t (b_min b))
  | NMin, b :: t => Ok (fold_left (fun lhs b => qmin lhs (b_min b)) t (b_min b))
  | NMul, b :: t => Ok (fst (fold_left nary_prod1 t (b_min b, b_max b)))
  end.

(** * Reductions ([rop] of ReduceModel) *)
Section Reduce.
Variable o : rop.
(** The stored initial value; the array's bounds and [size()] (negative: dynamic); [min] and [max] of
    [sizeinfo().substitute(100)], only used when it is dynamic. *)
Variable init : option Qc.
Variable a : bnd.
Variable size : Z.
Variables smin smax : option Z.
Definition init_or (z : Qc) : Qc := match init with Some i => i | None => z end.
(** [std::pow] with a non-negative integer. *)
Definition pow (x : Qc) (n : Z) : Qc := Qcpower x (Z.to_nat n).

(** [integral], 1279-1298. *)
Definition red_integral : bool :=
  match o with RAnd | ROr => true | _ => b_int a && is_integer (init_or 0%Qc) end.
(** The four products, 1344-1349 and 1431-1436. *)
Definition pows (f : Qc -> Qc -> Qc -> Qc -> Qc) : Qc :=
  let i := init_or 1%Qc in
  (f (i * pow (b_min a) size) (i * pow (b_max a) size)
     (i * b_min a * pow (b_max a) (size - 1)) (i * b_max a * pow (b_min a) (size - 1)))%Qc.
(** [max], 1300-1385. *)
Definition red_max : Qc :=
  match o with
  | RAnd | ROr => 1%Qc
  | RMax => match init with Some i => qmax i (b_max a) | None => b_max a end
  | RMin => match init with Some i => qmin i (b_max a) | None => b_max a end
  | RMul =>
      if (size <? 0)%Z then DMAX else
      if (size =? 0)%Z then init_or 1%Qc else
      if (size =? 1)%Z then qmax (init_or 1 * b_min a) (init_or 1 * b_max a)%Qc else pows max4
  | RAdd =>
      let high := b_max a in let i := init_or 0%Qc in
      if qeqb high 0 then i else
      if (0 <=? size)%Z then (i + zq size * high)%Qc else
      if qltb 0 high then match smax with None => DMAX | Some m => (i + zq m * high)%Qc end
      else (i + zq (match smin with Some m => m | None => 0%Z end) * high)%Qc
  end.
(** [min], 1387-1472. *)
Definition red_min : Qc :=
  match o with
  | RAnd | ROr => 0%Qc
  | RMax => match init with Some i => qmax i (b_min a) | None => b_min a end
  | RMin => match init with Some i => qmin i (b_min a) | None => b_min a end
  | RMul =>
      if (size <? 0)%Z then (- DMAX)%Qc else
      if (size =? 0)%Z then init_or 1%Qc else
      if (size =? 1)%Z then qmin (init_or 1 * b_min a) (init_or 1 * b_max a)%Qc else pows min4
  | RAdd =>
      let low := b_min a in let i := init_or 0%Qc in
      if qeqb low 0 then i else
      if (0 <=? size)%Z then (i + zq size * low)%Qc else
      if qltb low 0 then match smax with None => (- DMAX)%Qc | Some m => (i + zq m * low)%Qc end
      else (i + zq (match smin with Some m => m | None => 0%Z end) * low)%Qc
  end.
End Reduce.

(** [PartialReduceNode<std::plus>]: [integral] 894-910, [max] 946-961, [min] 963-978; [d] is [shape()[axis]]. *)
Definition pr_integral (init : Qc) (a : bnd) : bool := b_int a && is_integer init.
Definition pr_max (init : Qc) (a : bnd) (d : Z) : Qc := (init + zq d * b_max a)%Qc.
Definition pr_min (init : Qc) (a : bnd) (d : Z) : Qc := (init + zq d * b_min a)%Qc.
