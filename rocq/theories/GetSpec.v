(** NumPy's indexing by integers, slices and arrays together, independently of the code
    (https://numpy.org/doc/stable/user/basics.indexing.html). *)
From Verif Require Import Base Num ShapeSpec SliceSpec PermSpec AdvSpec PyModel PySpec.
Local Open Scope Z_scope.

(** What may appear between the brackets; of an array, its entries. *)
Inductive nidx := NInt (z : Z) | NSlice (start stop step : option Z) | NArr (entries : list num).
(** An index that counts as advanced as soon as there is an array. *)
Definition fancy (i : nidx) : bool := match i with NSlice _ _ _ => false | _ => true end.
Definition is_array (i : nidx) : bool := match i with NArr _ => true | _ => false end.

(** The positions of a slice along an axis of length [d]; the step is positive. *)
Definition positions (d : Z) (start stop step : option Z) : list Z :=
  let first := match start with Some b => Z.max 0 (py_norm d b) | None => 0 end in
  filter (fun x => (first <=? x) && match stop with Some b => x <? py_norm d b | None => true end &&
                   ((x - first) mod match step with Some s => s | None => 1 end =? 0))
         (map Z.of_nat (seq 0 (Z.to_nat d))).

(** The lengths of the sliced axes of the result. *)
Fixpoint kept (sh : list Z) (ix : list nidx) : list Z :=
  match sh, ix with
  | d :: sh', NSlice a b c :: r => Z.of_nat (length (positions d a b c)) :: kept sh' r
  | _ :: sh', _ :: r => kept sh' r
  | _, _ => []
  end.
(** The element shown at entry [j] of the arrays and coordinates [sub] of the sliced axes. *)
Fixpoint source (sh : list Z) (ix : list nidx) (j : nat) (sub : list Z) : option (list Z) :=
  match sh, ix with
  | [], [] => Some []
  | d :: sh', NInt z :: r => if (-d <=? z) && (z <? d) then option_map (cons (py_norm d z)) (source sh' r j sub) else None
  | d :: sh', NSlice a b c :: r =>
      match nth_error (positions d a b c) (Z.to_nat (hd 0 sub)) with
      | Some p => option_map (cons p) (source sh' r j (tl sub))
      | None => None
      end
  | d :: sh', NArr v :: r =>
      match nth_error v j with
      | Some x => match below (Z.to_nat d) x with
                  | Some i => option_map (cons (Z.of_nat i)) (source sh' r j sub)
                  | None => None
                  end
      | None => None
      end
  | _, _ => None
  end.
Definition element (sh : list Z) (ix : list nidx) (a : list num) (j : nat) (sub : list Z) : option num :=
  match source sh ix j sub with Some c => nth_error a (Z.to_nat (rank sh c)) | None => None end.

(** Where the axis of the arrays goes: in front if a slice separates two advanced indices, integers
    among them, in the place of the first of them otherwise. *)
Definition array_axis (ix : list nidx) : nat := result_axis (map fancy ix).
(** The shape of the result if the arrays have [n] entries along one axis, and its elements in order. *)
Definition npy_shape (sh : list Z) (ix : list nidx) (n : nat) : list Z :=
  if existsb is_array ix then ins (array_axis ix) (Z.of_nat n) (kept sh ix) else kept sh ix.
Definition npy (sh : list Z) (ix : list nidx) (n : nat) (a : list num) : option (list num) :=
  all_some (map (fun o => if existsb is_array ix
                          then element sh ix a (Z.to_nat (nth (array_axis ix) o 0)) (del (array_axis ix) o)
                          else element sh ix a 0 o)
                (all_idx (npy_shape sh ix n))).
(** Missing indices are full slices. *)
Definition padded (sh : list Z) (ix : list nidx) : list nidx := ix ++ repeat (NSlice None None None) (length sh - length ix).

(** The index arrays have [n] entries, all within their axis. *)
Definition inside (n : nat) (sh : list Z) (ix : list nidx) : Prop :=
  Forall2 (fun d i => match i with NArr v => length v = n /\ Forall (fun x => exists z, 0 <= z < d /\ x = zq z) v | _ => True end) sh ix.
(** Taking the integers out first does not move the axis of the arrays. *)
Definition undisturbed (ix : list nidx) : Prop :=
  array_axis ix = array_axis (filter (fun i => match i with NInt _ => false | _ => true end) ix).

(** What an index written in Python is. *)
Definition stands (m : pym) (dv : nat -> list num) (i : pyidx) (k : nidx) : Prop :=
  match i, k with
  | PInt z, NInt z' => z = z'
  | PSlice a b c, NSlice a' b' c' => a = a' /\ b = b' /\ c = c'
  | PArr x, NArr v => yields m dv x v
  | _, _ => False
  end.
