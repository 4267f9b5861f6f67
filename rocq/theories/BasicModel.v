(** Model of [BasicIndexingNode], the indices part: src/nodes/indexing.cpp:915-1043, 1118-1180.
    Positions and strides are unbounded integers here (they stay within the array); [Slice] itself is
    the 64-bit model of SliceModel. *)
From Verif Require Import Base SliceModel ShapeModel.
Local Open Scope Z_scope.

(** [slice_or_int], indexing.hpp:153. *)
Inductive sidx := IInt (z : Z) | ISlice (s : slice).

(** What [IndexParser_] leaves, 1020-1027. *)
Record parsed := Parsed { p_shape : list Z; p_strides : list Z; p_start : Z; p_axis0 : option slice }.

(** The loop 943-1018 over indices, [first]: axis 0 of a dynamic array.  Axes: size and stride. *)
Fixpoint parse_loop (first : bool) (axes : list (Z * Z)) (idx : list sidx) : res parsed :=
  match idx, axes with
  | [], _ => Ok (Parsed [] [] 0 None)
  | _ :: _, [] => UB
  | ISlice s :: r, (d, st) :: ax =>
      if sstep s =? 0 then Throw else
      if sstep s <? 0 then Throw else
      if first then
        rbind (parse_loop false ax r) (fun p => Ok (Parsed (-1 :: p_shape p) (sstep s * st :: p_strides p) (p_start p) (Some s)))
      else
        rbind (fit s d) (fun f => rbind (slice_size f) (fun n =>
        rbind (parse_loop false ax r) (fun p =>
        Ok (Parsed (n :: p_shape p) (sstep f * st :: p_strides p) (Z.quot (sstart f * st) itemsize + p_start p) (p_axis0 p)))))
  | IInt i :: r, (d, st) :: ax =>
      if first then Throw else
      let i := if i <? 0 then i + d else i in
      if (i <? 0) || (d <=? i) then Throw else
      rbind (parse_loop false ax r) (fun p => Ok (Parsed (p_shape p) (p_strides p) (Z.quot (i * st) itemsize + p_start p) (p_axis0 p)))
  end.
(** [IndexParser_], 917-1018; [size] is that of the array: negative if it is dynamic. *)
Definition parse (size : Z) (shape strides : list Z) (contiguous : bool) (idx : list sidx) : res parsed :=
  if Nat.ltb (length idx) (length shape) then Throw else
  if Nat.ltb (length shape) (length idx) then Throw else
  if negb contiguous then Throw else
  parse_loop (size <? 0) (combine shape strides) idx.

(** [infer_indices], 1118-1180, the loop 1150-1177.  Axes of the view: stride and size; division by
    zero is undefined. *)
Fixpoint infer_loop (axes : list (Z * Z)) (view : list (Z * Z)) (flat : Z) : res (list sidx) :=
  match axes with
  | [] => Ok []
  | (d, st) :: ax =>
      let num := Z.quot st itemsize in
      if num =? 0 then UB else
      let start := Z.quot flat num in
      let flat := Z.rem flat num in
      match view with
      | (vst, n) :: v =>
          if vst <? st then rbind (infer_loop ax view flat) (fun l => Ok (IInt start :: l))
          else let step := Z.quot vst st in
               rbind (mk_slice (Some start) (Some (start + n * step)) (Some step)) (fun s =>
               rbind (fit s d) (fun f => rbind (infer_loop ax v flat) (fun l => Ok (ISlice f :: l))))
      | [] => rbind (infer_loop ax view flat) (fun l => Ok (IInt start :: l))
      end
  end.
Definition infer_indices (shape strides : list Z) (p : parsed) : res (list sidx) :=
  if shape_to_size (p_shape p) <? 0 then
    match p_axis0 p with
    | Some s => rbind (infer_loop (combine (tl shape) (tl strides)) (combine (tl (p_strides p)) (tl (p_shape p))) (p_start p)) (fun l => Ok (ISlice s :: l))
    | None => UB
    end
  else infer_loop (combine shape strides) (combine (p_strides p) (p_shape p)) (p_start p).
