(** Model of [ReduceNode] (src/nodes/mathematical.cpp:1075-1707).  Simplifications: exact arithmetic
    ([std::reduce] may regroup; here it is a left fold); an update with neither old nor new value is
    treated as undefined; failing assertions are undefined. *)
From Verif Require Import Base SliceModel ShapeModel StateDataModel NodeSpec BinaryModel Num.

(** The instantiations, 1701-1707. *)
Inductive rop := RAnd | ROr | RMax | RMin | RMul | RAdd.

(** Constructors, 1159-1191: the initial value stored, from the one supplied, if any. *)
Definition red_new (o : rop) (init : option Qc) (s : list Z) : res (option Qc) :=
  match init with
  | Some i => Ok (Some i)
  | None =>
      match o with
      | RAnd | RMul => Ok (Some 1%Qc)
      | ROr | RAdd => Ok (Some 0%Qc)
      | RMax | RMin =>
          if (shape_to_size s <? 0)%Z then Throw else if (shape_to_size s <? 1)%Z then Throw else Ok None
      end
  end.

(** [ReduceNodeData] with its [ExtraData], 1077-1157: [x_cnt] is [num_zero] or [num_nonzero], [x_nz]
    is [nonzero]; operations without the field keep it constant. *)
Record rdata := RData {
  r_old : Qc; r_val : Qc; x_nz : Qc; x_nz_old : Qc; x_cnt : Z; x_cnt_old : Z }.
Definition r_new (v nz : Qc) (cnt : Z) : rdata := RData v v nz nz cnt cnt.
Definition r_commit (d : rdata) : rdata := RData (r_val d) (r_val d) (x_nz d) (x_nz d) (x_cnt d) (x_cnt d).
Definition r_revert (d : rdata) : rdata :=
  RData (r_old d) (r_old d) (x_nz_old d) (x_nz_old d) (x_cnt_old d) (x_cnt_old d).
(** [diff] and [buff], 1198-1207. *)
Definition r_out (d : rdata) : pin Qc :=
  {| pview := [r_val d]; pdiff := if qeqb (r_old d) (r_val d) then [] else [change 0 (r_old d) (r_val d)];
     psdiff := 0%Z |}.

Section Reduce.
Variable o : rop.
Variable init : option Qc.

Definition rop_func : Qc -> Qc -> Qc :=
  match o with
  | RAnd => fun x y => b2q (q2b x && q2b y) | ROr => fun x y => b2q (q2b x || q2b y)
  | RMax => qmax | RMin => qmin | RMul => Qcmult | RAdd => Qcplus
  end.

(** [reduce], 1672-1694. *)
Definition red_reduce (l : list Qc) : res Qc :=
  match init, l with
  | Some i, _ => Ok (fold_left rop_func l i)
  | None, x :: t => Ok (fold_left rop_func t x)
  | None, [] => UB
  end.

Definition ivalue_or (z : Qc) : Qc := match init with Some i => i | None => z end.
Definition b2z (b : bool) : Z := if b then 1%Z else 0%Z.

(** [initialize_state], 1209-1277. *)
Definition red_init (pins : list (pin Qc)) : res rdata :=
  match pins with
  | [p] =>
      match o with
      | RAnd =>
          let n := fold_left (fun n v => (n + b2z (negb (q2b v)))%Z) (pview p) (if q2b (ivalue_or 1) then 0%Z else 1%Z) in
          Ok (r_new (b2q (n =? 0)%Z) 1 n)
      | ROr =>
          let n := fold_left (fun n v => (n + b2z (q2b v))%Z) (pview p) (if q2b (ivalue_or 1) then 1%Z else 0%Z) in
          Ok (r_new (b2q (0 <? n)%Z) 1 n)
      | RMul =>
          let (nz, n) := fold_left (fun st v => if qeqb v 0 then (fst st, snd st + 1)%Z else ((fst st * v)%Qc, snd st))
                           (pview p) (ivalue_or 1, 0%Z) in
          Ok (r_new (if (0 <? n)%Z then 0%Qc else nz) nz n)
      | RMax | RMin | RAdd => rbind (red_reduce (pview p)) (fun v => Ok (r_new v 1 0))
      end
  | _ => UB
  end.

(** The counting loops of [logical_and], 1481-1500, and [logical_or], 1515-1534: the counted values
    are those with [cnt]. *)
Definition count1 (cnt : Qc -> bool) (n : Z) (u : update Qc) : res Z :=
  match uold u, uval u with
  | None, Some v => Ok (n + b2z (cnt v))%Z
  | Some x, None => Ok (n - b2z (cnt x))%Z
  | Some x, Some v =>
      if cnt x && negb (cnt v) then Ok (n - 1)%Z
      else if negb (cnt x) && cnt v then Ok (n + 1)%Z else Ok n
  | None, None => UB
  end.

(** The loops of [max], 1549-1566, and [min], 1582-1599: [None] when the value must be recomputed;
    [ge]/[gt] are [>=] and [>], or [<=] and [<]. *)
Fixpoint extremum (ge gt : Qc -> Qc -> bool) (f : Qc -> Qc -> Qc) (value : Qc) (us : list (update Qc))
  : res (option Qc) :=
  match us with
  | [] => Ok (Some value)
  | u :: t =>
      match uold u, uval u with
      | Some x, None => if ge x value then Ok None else extremum ge gt f value t
      | None, Some v => extremum ge gt f (f v value) t
      | Some x, Some v =>
          if gt v x then extremum ge gt f (f v value) t
          else if qeqb x value && negb (qeqb x v) then (if gt x v then Ok None else UB)
          else extremum ge gt f value t
      | None, None => UB
      end
  end.

(** Loop body of [multiplies], 1618-1645. *)
Definition mul1 (st : Qc * Z) (u : update Qc) : res (Qc * Z) :=
  let (nz, n) := st in
  match uold u, uval u with
  | None, Some v => if qeqb v 0 then Ok (nz, n + 1)%Z else Ok ((nz * v)%Qc, n)
  | Some x, None => if qeqb x 0 then Ok (nz, n - 1)%Z else Ok ((nz / x)%Qc, n)
  | Some x, Some v =>
      if qeqb x 0 && qeqb v 0 then Ok (nz, n)
      else if qeqb x 0 then Ok ((nz * v)%Qc, (n - 1)%Z)
      else if qeqb v 0 then Ok ((nz / x)%Qc, (n + 1)%Z)
      else Ok ((nz * (v / x))%Qc, n)
  | None, None => UB
  end.

(** Loop body of [plus], 1659-1667. *)
Definition add1 (value : Qc) (u : update Qc) : res Qc :=
  match uold u, uval u with
  | None, Some v => Ok (value + v)%Qc
  | Some x, None => Ok (value - x)%Qc
  | Some x, Some v => Ok (value + (v - x))%Qc
  | None, None => UB
  end.

Definition set_val (d : rdata) (v nz : Qc) (n : Z) : rdata := RData (r_old d) v nz (x_nz_old d) n (x_cnt_old d).

(** [propagate], 1474-1670. *)
Definition red_prop (d : rdata) (pins : list (pin Qc)) : res rdata :=
  match pins with
  | [p] =>
      match o with
      | RAnd =>
          rbind (rfold (count1 (fun v => negb (q2b v))) (x_cnt d) (pdiff p)) (fun n =>
            if (n <? 0)%Z then UB else Ok (set_val d (b2q (n <? 1)%Z) (x_nz d) n))
      | ROr =>
          rbind (rfold (count1 q2b) (x_cnt d) (pdiff p)) (fun n =>
            if (n <? 0)%Z then UB else Ok (set_val d (b2q (0 <? n)%Z) (x_nz d) n))
      | RMax | RMin =>
          rbind (match o with
                 | RMax => extremum (fun x y => qleb y x) (fun x y => qltb y x) qmax (r_val d) (pdiff p)
                 | _ => extremum qleb qltb qmin (r_val d) (pdiff p) end)
            (fun r => match r with
                      | Some v => Ok (set_val d v (x_nz d) (x_cnt d))
                      | None => rbind (red_reduce (pview p)) (fun v => Ok (set_val d v (x_nz d) (x_cnt d))) end)
      | RMul =>
          if (x_cnt d =? 0)%Z || qeqb (r_val d) 0 then
            rbind (rfold mul1 (x_nz d, x_cnt d) (pdiff p)) (fun st =>
              Ok (set_val d (if (0 <? snd st)%Z then 0%Qc else fst st) (fst st) (snd st)))
          else UB
      | RAdd => rbind (rfold add1 (r_val d) (pdiff p)) (fun v => Ok (set_val d v (x_nz d) (x_cnt d)))
      end
  | _ => UB
  end.

(** The node: a scalar output (ArrayOutputMixin with empty shape). *)
Definition red_node (s : list Z) : node Qc :=
  {| nd_shape := []; nd_pre := [s]; nd_ST := rdata; nd_init := red_init; nd_out := fun d _ => Some (r_out d);
     nd_prop := red_prop; nd_commit := r_commit; nd_revert := fun d => Ok (r_revert d) |}.
End Reduce.
