(** Model of shape/stride arithmetic and strided iteration: src/array.cpp:209-275 and
    include/dwave-optimization/array.hpp:272-690, 811-861.  Strides are in bytes. *)
From Verif Require Import Base SliceModel.
Local Open Scope Z_scope.

Definition itemsize : Z := 8.

(** Conversion to [size_t] and back to [ssize_t] (both modular). *)
Definition to_u (z : Z) : Z := z mod UMOD.
Definition to_s (z : Z) : Z := let u := z mod UMOD in if u <? UMOD / 2 then u else u - UMOD.

(** [broadcast_shape], array.cpp:209-250; the loops walk both shapes backwards, so this works on the
    reversed shapes.  [None]: the shapes are incompatible. *)
Fixpoint bcast (l r : list Z) : option (list Z) :=
  match l, r with
  | a :: l', b :: r' =>
      match bcast l' r' with
      | Some s => if a =? b then Some (a :: s)
                  else if a =? 1 then Some (b :: s)
                  else if b =? 1 then Some (a :: s)
                  else None
      | None => None
      end
  | _ :: _, [] => Some l
  | [], _ => Some r
  end.
Definition broadcast_shape (l r : list Z) : res (list Z) :=
  match bcast (rev l) (rev r) with Some s => Ok (rev s) | None => Throw end.

(** [unravel_index], array.cpp:252-261.  [sizeof] makes both divisions unsigned; a zero divisor is
    undefined behaviour. *)
Fixpoint unravel_index (strides : list Z) (index : Z) : res (list Z) :=
  match strides with
  | [] => Ok []
  | s :: t =>
      let d := to_u s / itemsize in
      if d =? 0 then UB
      else rbind (unravel_index t (to_s (to_u index mod d)))
                 (fun r => Ok (to_s (to_u index / d) :: r))
  end.

(** [ravel_multi_index], array.cpp:263-274.  The product is signed (overflow is UB), the division and
    the sum are unsigned.  Reading past the indices is UB. *)
Fixpoint ravel_from (flat : Z) (strides indices : list Z) : res Z :=
  match strides, indices with
  | [], _ => Ok flat
  | s :: t, i :: u => rbind (schk (i * s)) (fun p => ravel_from (to_s (to_u flat + to_u p / itemsize)) t u)
  | _ :: _, [] => UB
  end.
Definition ravel_multi_index (strides indices : list Z) : res Z := ravel_from 0 strides indices.

(** [shape_to_size], array.hpp:841-845.  The initial value [1] of [std::reduce] is an [int], so the
    accumulated product is converted to 32 bits. *)
Definition to_int (z : Z) : Z :=
  let u := z mod 4294967296 in if u <? 2147483648 then u else u - 4294967296.
Definition shape_to_size (shape : list Z) : Z :=
  match shape with
  | [] => 1
  | d :: _ => if d <? 0 then -1 else to_int (fold_left Z.mul shape 1)
  end.

(** [shape_to_strides], array.hpp:851-861. *)
Fixpoint shape_to_strides (shape : list Z) : list Z :=
  match shape with
  | [] => []
  | _ :: t => match t with
              | [] => [itemsize]
              | d :: _ => hd 0 (shape_to_strides t) * d :: shape_to_strides t
              end
  end.

(** [is_contiguous], array.hpp:816-836, on the reversed axes (innermost first).  The assertion of
    line 826 is modelled by [None]. *)
Fixpoint contig (axes : list (Z * Z)) (sd : Z) : option bool :=
  match axes with
  | [] => Some true
  | (dim, stride) :: t =>
      if negb ((0 <=? dim) || match t with [] => true | _ => false end) then None
      else if dim =? 0 then Some true
      else if negb (dim =? 1) && negb (stride =? sd) then Some false
      else contig t (sd * dim)
  end.
Definition is_contiguous (shape strides : list Z) : option bool :=
  contig (rev (combine shape strides)) itemsize.

(** [ShapeInfo], array.hpp:532-684: dimensions and strides of the axes >= 1, innermost first, the
    stride of axis 0 ([None] for a scalar), and the location in the axes >= 1, innermost first. *)
Record shapeinfo := ShapeInfo { si_axes : list (Z * Z); si_s0 : option Z; si_loc : list Z }.

(** The constructor, array.hpp:535-543. *)
Definition mk_shapeinfo (shape strides : list Z) : shapeinfo :=
  {| si_axes := rev (combine (tl shape) (tl strides));
     si_s0 := match shape with [] => None | _ => Some (hd 0 strides) end;
     si_loc := map (fun _ => 0) (tl shape) |}.

(** The loop of [increment1], array.hpp:596-604: offset, new locations, and whether axis 0 was reached. *)
Fixpoint inc1_loop (axes : list (Z * Z)) (loc : list Z) : Z * list Z * bool :=
  match axes, loc with
  | (d, s) :: ax, l :: lc =>
      if l + 1 <? d then (s, (l + 1) :: lc, false)
      else let '(o, lc', c) := inc1_loop ax lc in (s - s * d + o, 0 :: lc', c)
  | _, _ => (0, loc, true)
  end.

(** [increment1], array.hpp:592-612. *)
Definition axis0 (si : shapeinfo) (c : bool) (k : Z) : Z :=
  match si_s0 si with Some s0 => if c then k * s0 else 0 | None => 0 end.
Definition increment1 (si : shapeinfo) : Z * shapeinfo :=
  let '(o, lc, c) := inc1_loop (si_axes si) (si_loc si) in
  (o + axis0 si c 1, {| si_axes := si_axes si; si_s0 := si_s0 si; si_loc := lc |}).

(** [decrement1], array.hpp:569-588. *)
Fixpoint dec1_loop (axes : list (Z * Z)) (loc : list Z) : Z * list Z * bool :=
  match axes, loc with
  | (d, s) :: ax, l :: lc =>
      if 0 <=? l - 1 then (- s, (l - 1) :: lc, false)
      else let '(o, lc', c) := dec1_loop ax lc in (- s + s * d + o, (d - 1) :: lc', c)
  | _, _ => (0, loc, true)
  end.
Definition decrement1 (si : shapeinfo) : Z * shapeinfo :=
  let '(o, lc, c) := dec1_loop (si_axes si) (si_loc si) in
  (o + axis0 si c (-1), {| si_axes := si_axes si; si_s0 := si_s0 si; si_loc := lc |}).

(** The loop of [increment], array.hpp:635-664: [q] is [qr.quot].  [std::div] truncates; a zero
    dimension is a division by zero ([None]).  The result carries the quotient left for axis 0 and
    whether axis 0 was reached. *)
Fixpoint inc_loop (axes : list (Z * Z)) (loc : list Z) (q : Z) : option (Z * list Z * Z * bool) :=
  match axes, loc with
  | (d, s) :: ax, l :: lc =>
      let q1 := if l =? 0 then q else q + l in
      let o1 := if l =? 0 then 0 else - (l * s) in
      if d =? 0 then None
      else
        let q2 := Z.quot q1 d in
        let r2 := Z.rem q1 d in
        let q3 := if r2 <? 0 then q2 - 1 else q2 in
        let r3 := if r2 <? 0 then r2 + d else r2 in
        if q3 =? 0 then Some (o1 + r3 * s, r3 :: lc, 0, false)
        else match inc_loop ax lc q3 with
             | Some (o, lc', q', c) => Some (o1 + r3 * s + o, r3 :: lc', q', c)
             | None => None
             end
  | _, _ => Some (0, loc, q, true)
  end.

(** [increment], array.hpp:617-670. *)
Definition increment (si : shapeinfo) (n : Z) : option (Z * shapeinfo) :=
  if n =? 0 then Some (0, si)
  else if n =? 1 then Some (increment1 si)
  else if n =? -1 then Some (decrement1 si)
  else match inc_loop (si_axes si) (si_loc si) n with
       | Some (o, lc, q, c) =>
           Some (o + axis0 si c q, {| si_axes := si_axes si; si_s0 := si_s0 si; si_loc := lc |})
       | None => None
       end.

(** Unmasked iterator: position in doubles plus, for strided iterators, the shape information. *)
Record iter := Iter { it_ptr : Z; it_shape : option shapeinfo }.

(** [begin], array.hpp:763-766, with [contiguous()] decided by the caller. *)
Definition it_begin (contiguous : bool) (buff : Z) (shape strides : list Z) : iter :=
  {| it_ptr := buff; it_shape := if contiguous then None else Some (mk_shapeinfo shape strides) |}.

(** [operator++], [operator--], [operator+=], array.hpp:347-403.  The byte offset is divided by
    [itemsize] (truncating). *)
Definition it_inc (it : iter) : iter :=
  match it_shape it with
  | Some si => let '(o, si') := increment1 si in
      {| it_ptr := it_ptr it + Z.quot o itemsize; it_shape := Some si' |}
  | None => {| it_ptr := it_ptr it + 1; it_shape := None |}
  end.
Definition it_dec (it : iter) : iter :=
  match it_shape it with
  | Some si => let '(o, si') := decrement1 si in
      {| it_ptr := it_ptr it + Z.quot o itemsize; it_shape := Some si' |}
  | None => {| it_ptr := it_ptr it - 1; it_shape := None |}
  end.
Definition it_add (it : iter) (n : Z) : option iter :=
  match it_shape it with
  | Some si => match increment si n with
               | Some (o, si') => Some {| it_ptr := it_ptr it + Z.quot o itemsize; it_shape := Some si' |}
               | None => None
               end
  | None => Some {| it_ptr := it_ptr it + n; it_shape := None |}
  end.

(** [operator-] between iterators, array.hpp:415-483.  Returns the distance and the two operands
    afterwards: the loop zeroes the locations of the operands themselves (lines 455-456 take the
    locations of [a] and [b], not of the copies), but only the copies' pointers move.  [None]: an
    assertion fails or axis 0 has stride 0. *)
Fixpoint diff_loop (axes : list (Z * Z)) (la lb : list Z) (incs : Z) : Z * Z * Z * Z :=
  (* offset, target pointer change, source pointer change, incs_per_step *)
  match axes, la, lb with
  | (d, s) :: ax, a :: la', b :: lb' =>
      let st := Z.quot s itemsize in
      let '(o, ta, sb, incs') := diff_loop ax la' lb' (incs * d) in
      (o - b * incs + a * incs, ta - a * st, sb - b * st, incs')
  | _, _, _ => (0, 0, 0, incs)
  end.
Definition zero_loc (si : shapeinfo) : shapeinfo :=
  {| si_axes := si_axes si; si_s0 := si_s0 si; si_loc := map (fun _ => 0) (si_loc si) |}.
Definition it_diff (a b : iter) : option (Z * iter * iter) :=
  match it_shape a, it_shape b with
  | None, None => Some (it_ptr a - it_ptr b, a, b)
  | Some sa, Some sb =>
      if it_ptr a =? it_ptr b then Some (0, a, b)
      else match si_s0 sa with
           | None => Some (0, a, b)
           | Some s0 =>
               let '(o, ta, sb', incs) := diff_loop (si_axes sa) (si_loc sa) (si_loc sb) 1 in
               let st := Z.quot s0 itemsize in
               if st =? 0 then None
               else Some (o + Z.quot ((it_ptr a + ta) - (it_ptr b + sb')) st * incs,
                          {| it_ptr := it_ptr a; it_shape := Some (zero_loc sa) |},
                          {| it_ptr := it_ptr b; it_shape := Some (zero_loc sb) |})
           end
  | _, _ => None
  end.

(** [operator<], by [operator<=>], array.hpp:494-496: [0 <=> rhs - lhs]. *)
Definition it_ltb (a b : iter) : option bool :=
  match it_diff b a with Some (d, _, _) => Some (0 <? d) | None => None end.
