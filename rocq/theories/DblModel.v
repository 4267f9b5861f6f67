(** Sums and products kept up to date in doubles (src/nodes/mathematical.cpp), instead of the exact
    numbers of the other files.  A double is an IEEE 754 binary64 number, and the operations round to
    nearest, ties to even: the standard library's specification of floating-point numbers, at 53 bits of
    precision.  NaNs are not told apart. *)
From Coq.Floats Require Import SpecFloat.
From Verif Require Import Base SliceModel StateDataModel BinaryModel QuadModel DblSpec.
Local Open Scope Z_scope.

Definition dbl := spec_float.
Definition dadd : dbl -> dbl -> dbl := SFadd 53 1024.
Definition dsub : dbl -> dbl -> dbl := SFsub 53 1024.
Definition dmul : dbl -> dbl -> dbl := SFmul 53 1024.
Definition ddiv : dbl -> dbl -> dbl := SFdiv 53 1024.
(** [==]: false if an operand is NaN, true of the two zeros. *)
Definition deqb : dbl -> dbl -> bool := SFeqb.
(** The double of a whole number in the code. *)
Definition dlit (z : Z) : dbl := binary_normalize 53 1024 z 0 false.
Definition dnan (x : dbl) : bool := match x with S754_nan => true | _ => false end.
(** [static_cast<ssize_t>], as used on indices: the fraction is dropped; [None] if it is undefined
    (infinities and NaN; overflow is not modelled). *)
Definition dtrunc (x : dbl) : option Z :=
  match x with
  | S754_zero _ => Some 0
  | S754_finite s m e => Some (cond_Zopp s (if e <? 0 then Zpos m / 2 ^ (- e) else Zpos m * 2 ^ e))
  | _ => None
  end.

(** [Update], array.hpp:174-227: a NaN stands for nothing. *)
Record dupdate := DUpd { d_idx : nat; d_old : dbl; d_val : dbl }.
Definition d_placed (u : dupdate) : bool := dnan (d_old u).
Definition d_removed (u : dupdate) : bool := dnan (d_val u).

(** [ReduceNode<std::plus<double>>].  State: [values.old], [values.value] (1138-1157). *)
Record sdata := SData { s_old : dbl; s_val : dbl }.
(** [initialize_state], 1209-1217 with [reduce], 1672-1694: [std::reduce] may take any order. *)
Definition sum_init (init : option dbl) (l : list dbl) (d : sdata) : Prop :=
  exists r, reduced dadd init l r /\ d = SData r r.
(** Loop body of [propagate], 1659-1667. *)
Definition sum1 (value : dbl) (u : dupdate) : dbl :=
  if d_placed u then dadd value (d_val u)
  else if d_removed u then dsub value (d_old u)
  else dadd value (dsub (d_val u) (d_old u)).
Definition sum_prop (d : sdata) (us : list dupdate) : sdata := SData (s_old d) (fold_left sum1 us (s_val d)).
(** [commit] and [revert], 1144-1151. *)
Definition sum_commit (d : sdata) : sdata := SData (s_val d) (s_val d).
Definition sum_revert (d : sdata) : sdata := SData (s_old d) (s_old d).
(** [diff], 1203-1207, when the value differs. *)
Definition sum_diff (d : sdata) : dupdate := DUpd 0 (s_old d) (s_val d).
Definition sum_move (d : sdata) (m : move dupdate) : sdata :=
  let d1 := sum_prop d (updates_of m) in if kept m then sum_commit d1 else sum_revert d1.
Definition sum_run (d : sdata) (ms : list (move dupdate)) : sdata := fold_left sum_move ms d.

(** [ReduceNode<std::multiplies<double>>] with its [ExtraData], 1110-1134. *)
Record mdata := MData { m_old : dbl; m_val : dbl; m_nz : dbl; m_nz_old : dbl; m_cnt : Z; m_cnt_old : Z }.
(** [initialize_state], 1248-1277. *)
Definition mul_init (init : option dbl) (l : list dbl) : mdata :=
  let (nz, n) := fold_left (fun st v => if deqb v (dlit 0) then (fst st, snd st + 1) else (dmul (fst st) v, snd st)) l
                   (match init with Some i => i | None => dlit 1 end, 0) in
  let v := if 0 <? n then dlit 0 else nz in MData v v nz nz n n.
(** Loop body of [propagate], 1618-1645. *)
Definition mul1 (st : dbl * Z) (u : dupdate) : dbl * Z :=
  let (nz, n) := st in
  if d_placed u && deqb (d_val u) (dlit 0) then (nz, n + 1)
  else if d_placed u then (dmul nz (d_val u), n)
  else if d_removed u && deqb (d_old u) (dlit 0) then (nz, n - 1)
  else if d_removed u then (ddiv nz (d_old u), n)
  else if deqb (d_old u) (dlit 0) && deqb (d_val u) (dlit 0) then (nz, n)
  else if deqb (d_old u) (dlit 0) then (dmul nz (d_val u), n - 1)
  else if deqb (d_val u) (dlit 0) then (ddiv nz (d_old u), n + 1)
  else (dmul nz (ddiv (d_val u) (d_old u)), n).
(** [propagate], 1607-1649; the assertion of line 1615 failing is undefined behaviour. *)
Definition mul_prop (d : mdata) (us : list dupdate) : res mdata :=
  if (m_cnt d =? 0) || deqb (m_val d) (dlit 0) then
    let (nz, n) := fold_left mul1 us (m_nz d, m_cnt d) in
    Ok (MData (m_old d) (if 0 <? n then dlit 0 else nz) nz (m_nz_old d) n (m_cnt_old d))
  else UB.
Definition mul_commit (d : mdata) : mdata := MData (m_val d) (m_val d) (m_nz d) (m_nz d) (m_cnt d) (m_cnt d).
Definition mul_revert (d : mdata) : mdata := MData (m_old d) (m_old d) (m_nz_old d) (m_nz_old d) (m_cnt_old d) (m_cnt_old d).
Definition mul_move (d : mdata) (m : move dupdate) : res mdata :=
  rbind (mul_prop d (updates_of m)) (fun d1 => Ok (if kept m then mul_commit d1 else mul_revert d1)).
Definition mul_run (d : mdata) (ms : list (move dupdate)) : res mdata := rfold mul_move d ms.

(** [PartialReduceNode<std::plus<double>>] with [ArrayNodeStateData]; [f] is [map_parent_index],
    913-945. *)
Section Partial.
Variable f : nat -> nat.
Record pdata := PData { p_buf : list dbl; p_upd : list dupdate }.
(** [initialize_state], 878-892, with [reduce], 997-1050, of [n] entries; the entries of the array
    that belong to one of the output are those that [f] maps to it. *)
Definition part_init (init : option dbl) (n : nat) (l : list dbl) (d : pdata) : Prop :=
  exists rs, length rs = n /\ (forall j r, nth_error rs j = Some r -> reduced dadd init (group f j l) r) /\ d = PData rs [].
(** Loop body of [propagate], 987-992. *)
Definition part1 (d : pdata) (u : dupdate) : res pdata :=
  rbind (rget (p_buf d) (f (d_idx u))) (fun prev =>
  let v := dadd prev (dsub (d_val u) (d_old u)) in
  Ok (PData (lset (f (d_idx u)) v (p_buf d)) (p_upd d ++ [DUpd (f (d_idx u)) prev v]))).
Definition part_prop (d : pdata) (us : list dupdate) : res pdata := rfold part1 d us.
(** [ArrayNodeStateData::commit] and [revert], src/nodes/_state.hpp:80-83 and 130-140. *)
Definition part_commit (d : pdata) : pdata := PData (p_buf d) [].
Definition part_revert (d : pdata) : pdata :=
  PData (fold_left (fun b u => lset (d_idx u) (d_old u) b) (rev (p_upd d)) (p_buf d)) [].
Definition part_move (d : pdata) (m : move dupdate) : res pdata :=
  rbind (part_prop d (updates_of m)) (fun d1 => Ok (if kept m then part_commit d1 else part_revert d1)).
Definition part_run (d : pdata) (ms : list (move dupdate)) : res pdata := rfold part_move d ms.
End Partial.

(** Updates and changes of doubles that are those of whole numbers. *)
Definition stands (x : dbl) (o : option Z) : Prop := match o with Some z => whole x z | None => x = S754_nan end.
Definition same_update (u : dupdate) (z : update Z) : Prop :=
  d_idx u = uidx z /\ stands (d_old u) (uold z) /\ stands (d_val u) (uval z).
Definition same_move (m : move dupdate) (z : move (update Z)) : Prop :=
  kept m = kept z /\ Forall2 same_update (updates_of m) (updates_of z).
