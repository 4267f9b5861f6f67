(** Models of [functional::modulus] (nodes/mathematical.hpp:58-79), [fraction] (utils.hpp:78-159) and
    the statistics of [ConstantNode] (src/nodes/constants.cpp, nodes/constants.hpp). *)
From Verif Require Import Base SliceModel Num.

(** Conversion towards zero. *)
Definition qtrunc (q : Qc) : Z := Z.quot (Qnum (this q)) (Zpos (Qden (this q))).

(** [std::fmod]: exact by definition, the quotient truncated towards zero. *)
Definition fmod (x y : Qc) : Qc := (x - zq (qtrunc (x / y)) * y)%Qc.
(** [std::signbit], without negative zeros. *)
Definition signbit (x : Qc) : bool := qltb x 0.
(** [functional::modulus<double>::operator()], 64-77. *)
Definition modulus (x y : Qc) : Qc :=
  if qeqb y 0 then 0%Qc
  else let result := fmod x y in
    if negb (Bool.eqb (signbit x) (signbit y)) && negb (qeqb result 0) then (result + y)%Qc else result.

(** [fraction]: two [ssize_t]; every product is checked for overflow. *)
Record fraction := Frac { numerator : Z; denominator : Z }.

(** [reduce], 146-155.  [std::gcd] needs both magnitudes representable; the quotients are then exact. *)
Definition reduce (f : fraction) : res fraction :=
  rbind (schk (Z.abs (numerator f))) (fun n =>
  rbind (schk (Z.abs (denominator f))) (fun d =>
  let div := Z.gcd n d in
  let f := if negb (div =? 1)%Z then Frac (Z.quot (numerator f) div) (Z.quot (denominator f) div) else f in
  if (denominator f <? 0)%Z then
    rbind (schk (numerator f * -1)) (fun n => rbind (schk (denominator f * -1)) (fun d => Ok (Frac n d)))
  else Ok f)).
(** Constructors, 81-87. *)
Definition fr_int (n : Z) : fraction := Frac n 1.
Definition fr_new (n d : Z) : res fraction := if (d =? 0)%Z then Throw else reduce (Frac n d).
(** [operator==], 96-101. *)
Definition fr_eq (f g : fraction) : bool := ((numerator f =? numerator g) && (denominator f =? denominator g))%Z.
Definition fr_eq_int (f : fraction) (n : Z) : bool := ((numerator f =? n) && (denominator f =? 1))%Z.
(** [operator*=], 104-114 ([operator*] copies and calls it). *)
Definition fr_mul_int (f : fraction) (n : Z) : res fraction :=
  rbind (schk (numerator f * n)) (fun k => reduce (Frac k (denominator f))).
Definition fr_mul (f g : fraction) : res fraction :=
  rbind (schk (numerator f * numerator g)) (fun k =>
  rbind (schk (denominator f * denominator g)) (fun d => reduce (Frac k d))).
(** [operator/=], 119-124. *)
Definition fr_div_int (f : fraction) (n : Z) : res fraction :=
  if (n =? 0)%Z then Throw
  else rbind (schk (denominator f * n)) (fun d => reduce (Frac (numerator f) d)).
(** Conversion to [ssize_t], 93. *)
Definition fr_ssize (f : fraction) : Z := Z.quot (numerator f) (denominator f).

(** [ConstantNode]: the buffer and the lazily filled cache (constants.hpp:120-130). *)
Record bstats := BStats { st_integral : bool; st_min : Qc; st_max : Qc }.
Record constant := Const { c_buf : list Qc; c_cache : option bstats }.

(** [is_integer], utils.cpp:80: the fractional part is zero. *)
Definition is_integer (x : Qc) : bool := qeqb (x - zq (qtrunc x))%Qc 0.
(** [std::ranges::min]/[max] of a non-empty range: the running value is replaced by a strictly smaller
    (larger) one. *)
Definition range_min (x : Qc) (l : list Qc) : Qc := fold_left (fun m y => if qltb y m then y else m) l x.
Definition range_max (x : Qc) (l : list Qc) : Qc := fold_left (fun m y => if qltb m y then y else m) l x.
(** [BufferStats], constants.cpp:29-34; empty buffers are excluded by its callers. *)
Definition buffer_stats (l : list Qc) : res bstats :=
  match l with [] => UB | x :: l' => Ok (BStats (forallb is_integer l) (range_min x l') (range_max x l')) end.
(** The statistic [get] (35-112): [empty] for no elements, [one] for one, cached otherwise. *)
Definition c_query {A} (empty : A) (one : Qc -> A) (get : bstats -> A) (c : constant) : res (A * constant) :=
  match c_buf c with
  | [] => Ok (empty, c)
  | [x] => Ok (one x, c)
  | l => match c_cache c with
         | Some s => Ok (get s, c)
         | None => rbind (buffer_stats l) (fun s => Ok (get s, Const l (Some s)))
         end
  end.
Definition c_integral := c_query true is_integer st_integral.
Definition c_max := c_query 0%Qc (fun x => x) st_max.
Definition c_min := c_query 0%Qc (fun x => x) st_min.
(** [Array::logical], array.hpp:791: the operands of [&&] are evaluated in order. *)
Definition c_logical (c : constant) : res (bool * constant) :=
  rbind (c_integral c) (fun '(i, c) => if i then
    rbind (c_min c) (fun '(mn, c) => if qleb 0 mn then
      rbind (c_max c) (fun '(mx, c) => Ok (qleb mx 1, c)) else Ok (false, c)) else Ok (false, c)).

(** A history of queries on one constant node. *)
Inductive query := QIntegral | QMin | QMax | QLogical.
Inductive answer := ABool (b : bool) | ANum (x : Qc).
Definition c_ask (q : query) (c : constant) : res (answer * constant) :=
  match q with
  | QIntegral => rbind (c_integral c) (fun '(b, c) => Ok (ABool b, c))
  | QMin => rbind (c_min c) (fun '(x, c) => Ok (ANum x, c))
  | QMax => rbind (c_max c) (fun '(x, c) => Ok (ANum x, c))
  | QLogical => rbind (c_logical c) (fun '(b, c) => Ok (ABool b, c))
  end.
Fixpoint c_history (qs : list query) (c : constant) : res (list answer * constant) :=
  match qs with
  | [] => Ok ([], c)
  | q :: qs => rbind (c_ask q c) (fun '(a, c) => rbind (c_history qs c) (fun '(l, c) => Ok (a :: l, c)))
  end.
