(** Model of the declared size information: [SizeInfo] (array.hpp:42-68, src/array.cpp:19-102), the
    [sizeinfo] methods and [array_shape_equal] (src/array.cpp:165-194).  Arrays are numbered and pointers
    are their numbers.  Simplification: sums of sizes are unbounded integers (products of fractions are
    checked); assertions are not compiled in. *)
From Verif Require Import Base SliceModel ArithModel.
Local Open Scope Z_scope.

(** [SizeInfo]. *)
Record sizeinfo := SInfo { si_ptr : option nat; si_mult : fraction; si_off : Z; si_min : option Z; si_max : option Z }.
Definition si_fixed (n : Z) : sizeinfo := SInfo None (fr_int 0) n (Some n) (Some n).
Definition si_array (p : nat) (mn mx : option Z) : sizeinfo := SInfo (Some p) (fr_int 1) 0 mn mx.

(** The arrays that differ in how they declare their size. *)
Inductive arr :=
| AFixed (n : Z)                          (* any array of fixed size *)
| AOwn (mn mx : option Z)                 (* decisions: collections.cpp:212, 737; the default, array.hpp:779 *)
| ADefault (p : nat)                      (* UnaryOpNode and WhereNode of [p]: no override, the default, array.hpp:779 *)
| AScalarOp (p : nat)                     (* BinaryOpNode with one dynamic operand, mathematical.cpp:398 *)
| AGather (p : nat) (k : Z)               (* AdvancedIndexingNode, indexing.cpp:643: [k] elements for each index of [p] *)
| ASlice (p : nat) (s : slice) (prow row : Z). (* BasicIndexingNode, indexing.cpp:1517; elements per row of the
                                                  parent and of the view *)

Definition vor (o : option Z) (d : Z) : Z := match o with Some x => x | None => d end.

(** [BasicIndexingNode::sizeinfo], 1517-1583, for dynamic arrays. *)
Definition slice_info (p : nat) (s : slice) (prow row : Z) : res sizeinfo :=
  rbind (fr_div_int (fr_int 1) prow) (fun m =>
  rbind (fr_mul_int m row) (fun m =>
  rbind (fr_div_int m (sstep s)) (fun m =>
  rbind (if sstart s >? 0 then rbind (fr_mul_int m (sstart s)) (fun f => Ok (- fr_ssize f, None))
         else if sstart s <? 0 then rbind (fr_mul_int m (-1)) (fun f => rbind (fr_mul_int f (sstart s)) (fun f => Ok (0, Some (fr_ssize f))))
         else Ok (0, None)) (fun '(off, mx) =>
  rbind (if (sstop s >? 0) && negb (sstop s =? SMAX) then rbind (fr_mul_int m (sstop s)) (fun f => Ok (off, Some (fr_ssize f)))
         else if sstop s <? 0 then rbind (fr_mul_int m (sstop s)) (fun f => Ok (off + fr_ssize f, mx))
         else Ok (off, mx)) (fun '(off, mx) =>
  Ok (SInfo (Some p) m off None mx)))))).

Section Ctx.
Variable ctx : nat -> option arr.

(** [sizeinfo()] of an array; [UB] stands for a dangling pointer. *)
Definition info (id : nat) : res sizeinfo :=
  match ctx id with
  | None => UB
  | Some (AFixed n) => Ok (si_fixed n)
  | Some (AOwn mn mx) => Ok (si_array id mn mx)
  | Some (ADefault _) => Ok (si_array id None None)
  | Some (AScalarOp p) => Ok (si_array p None None)
  | Some (AGather p k) => Ok (si_array p None None)
  | Some (ASlice p s prow row) => slice_info p s prow row
  end.

(** [SizeInfo::operator==], 25-45. *)
Definition opt_eqb (a b : option Z) : bool :=
  match a, b with Some x, Some y => x =? y | None, None => true | _, _ => false end.
Definition si_eq_int (a : sizeinfo) (n : Z) : bool := fr_eq_int (si_mult a) 0 && (si_off a =? n).
Definition ptr_eqb (a b : option nat) : bool :=
  match a, b with Some x, Some y => Nat.eqb x y | None, None => true | _, _ => false end.
Definition si_eq (a b : sizeinfo) : bool :=
  if fr_eq_int (si_mult b) 0 then si_eq_int a (si_off b)
  else if fr_eq_int (si_mult a) 0 then si_eq_int b (si_off a)
  else if negb (ptr_eqb (si_ptr a) (si_ptr b)) then false
  else fr_eq (si_mult a) (si_mult b) && (si_off a =? si_off b) && (vor (si_min a) 0 =? vor (si_min b) 0)
       && opt_eqb (si_max a) (si_max b).

(** One round of [SizeInfo::substitute], 47-101. *)
Definition subst1 (t : sizeinfo) : res (sizeinfo * bool) :=
  match si_ptr t with
  | None => UB
  | Some p =>
    rbind (info p) (fun s =>
    if ptr_eqb (si_ptr t) (si_ptr s) && fr_eq_int (si_mult s) 1 && (si_off s =? 0)
       && (vor (si_min t) (- SMAX) >=? vor (si_min s) SMAX)
       && (vor (si_max t) SMAX <=? vor (si_max s) (- SMAX))
    then Ok (t, true)
    else
      rbind (fr_mul (si_mult s) (si_mult t)) (fun mult =>
      rbind (fr_mul_int (si_mult t) (si_off s)) (fun f =>
      let off := fr_ssize f + si_off t in
      let mx := match si_max t, si_max s with
                | Some a, Some b => Some (Z.min a b) | Some a, None => Some a | None, b => b end in
      let mn := match si_min t, si_min s with
                | Some a, Some b => Some (Z.max a b) | Some a, None => Some a | None, b => b end in
      let scale (o : option Z) : res (option Z) :=
        match o with
        | None => Ok None
        | Some x => rbind (if negb (fr_eq_int (si_mult t) 1) then rbind (fr_mul_int (si_mult t) x) (fun f => Ok (fr_ssize f)) else Ok x)
                          (fun x => Ok (Some (Z.max 0 (x + si_off t))))
        end in
      rbind (scale mn) (fun mn => rbind (scale mx) (fun mx =>
      Ok (match mn, mx with
          | Some a, Some b => if a =? b then SInfo (si_ptr s) (fr_int 0) a mn mx else SInfo (si_ptr s) mult off mn mx
          | _, _ => SInfo (si_ptr s) mult off mn mx
          end, false))))))
  end.
(** [substitute(depth)]. *)
Fixpoint substitute (depth : nat) (t : sizeinfo) : res sizeinfo :=
  match depth with
  | O => Ok t
  | S d => rbind (subst1 t) (fun '(s, same) => if (same : bool) then Ok s else substitute d s)
  end.

(** [array_shape_equal], 165-194; [fuel] bounds each of its three loops. *)
Fixpoint both (fuel : nat) (a b : nat) (sa sb : sizeinfo) : res (bool + (nat * nat * sizeinfo * sizeinfo)) :=
  if negb (ptr_eqb (si_ptr sa) (Some a)) && negb (ptr_eqb (si_ptr sb) (Some b)) then
    match fuel, si_ptr sa, si_ptr sb with
    | S fuel, Some a', Some b' =>
        rbind (substitute 1 sa) (fun sa => rbind (substitute 1 sb) (fun sb =>
        if si_eq sa sb then Ok (inl true) else both fuel a' b' sa sb))
    | _, _, _ => UB
    end
  else Ok (inr (a, b, sa, sb)).
Fixpoint one (fuel : nat) (test : sizeinfo -> bool) (a : nat) (sa : sizeinfo) : res (bool * sizeinfo) :=
  if negb (ptr_eqb (si_ptr sa) (Some a)) then
    match fuel, si_ptr sa with
    | S fuel, Some a' => rbind (substitute 1 sa) (fun sa => if test sa then Ok (true, sa) else one fuel test a' sa)
    | _, _ => UB
    end
  else Ok (false, sa).
Definition shape_equal (fuel : nat) (a b : nat) : res bool :=
  rbind (info a) (fun sa => rbind (info b) (fun sb =>
  if si_eq sa sb then Ok true
  else match si_ptr sa, si_ptr sb with
  | Some _, Some _ =>
      rbind (both fuel a b sa sb) (fun r =>
      match r with
      | inl b => Ok b
      | inr (a, b, sa, sb) =>
          rbind (one fuel (fun s => si_eq s sb) a sa) (fun '(r, sa) =>
          if (r : bool) then Ok true else
          rbind (one fuel (fun s => si_eq sa s) b sb) (fun '(r, _) => Ok r))
      end)
  | _, _ => Ok false
  end)).
End Ctx.
