(** Model of [AdvancedIndexingNode] and its state (src/nodes/indexing.cpp:80-910, indexing.hpp:44-130).
    Simplifications: exact arithmetic on unbounded integers; the indexed array is contiguous (its
    strides are those of [shape_to_strides]); strides, offsets and positions are counted in elements
    instead of bytes; iteration over the hash map of offsets is a function from offsets to lists.
    Assertions are checked when [dbg]; the operations that are undefined in C++ but whose result the
    code throws away (conversion of NaN to an integer, reads past the end when removing) are undefined
    behaviour when [strict] and harmless otherwise. *)
From Verif Require Import Base SliceModel ShapeModel StateDataModel NodeSpec BinaryModel Num QuadModel PermModel DedupModel.
Local Open Scope Z_scope.

(** [shape_to_strides], in elements. *)
Definition istrides (s : list Z) : list Z := map (fun x => x / 8) (shape_to_strides s).

(** An index of the constructor: an array, with what the constructor asks of it (its shape, its source
    of size if it is state-dependent, whether it is integral, its bounds), or a slice. *)
Inductive aindex := AArr (sh : list Z) (src : nat) (integral : bool) (lo hi : num) | ASlice (full : bool).
Definition is_arr (x : aindex) : bool := match x with AArr _ _ _ _ _ => true | ASlice _ => false end.

(** [array_shape_equal], array.cpp:165-194: it compares sizes, not shapes.  Two arrays of
    state-dependent size compare equal when they take their size from the same node. *)
Definition size_equal (s1 : list Z) (src1 : nat) (s2 : list Z) (src2 : nat) : bool :=
  if dynamic s1 then dynamic s2 && (src1 =? src2)%nat
  else negb (dynamic s2) && (shape_to_size s1 =? shape_to_size s2).

(** What the parser leaves behind. *)
Record adv := Adv { ad_shape : list Z; ad_spec : list bool; ad_b1 : bool; ad_ind : nat; ad_first : nat;
                    ad_ss : Z; ad_ishape : list Z; ad_oshape : list Z; ad_ostr : list Z; ad_istr : list Z }.

Section Parser.
Variable dbg : bool.
Variable ashape : list Z.
(** [sizeinfo().substitute(100).min] of the indexed array, used if it is state-dependent. *)
Variable amin : option Z.

(** The checks on one indexing array at axis [k] of length [d], 253-302. *)
Definition arr_check (k : nat) (d : Z) (integral : bool) (lo hi : num) : res unit :=
  if negb integral then Throw
  else if qltb lo 0%Qc then Throw
  else if (k =? 0)%nat && (d <? 0)
       then match amin with
            | None => Throw
            | Some m => if (hd 0 (shape_to_strides ashape) =? 0) then UB
                        else if qleb (zq (Z.quot (m * 8) (hd 0 (shape_to_strides ashape)))) hi then Throw else Ok tt
            end
       else if qleb (zq d) hi then Throw else Ok tt.

(** The loop over the indices, 246-329.  State: the first array (axis, shape, source), whether a slice
    came after an array, [bullet1mode]. *)
Fixpoint parse (k : nat) (sh : list Z) (ix : list aindex) (st : option (nat * list Z * nat) * bool * bool)
  : res (option (nat * list Z * nat) * bool * bool) :=
  match sh, ix with
  | d :: sh', x :: ix' =>
      let '(fa, sl, b1) := st in
      match x with
      | AArr s src intg lo hi =>
          rbind (arr_check k d intg lo hi) (fun _ =>
          match fa with
          | None => parse (S k) sh' ix' (Some (k, s, src), sl, b1 || sl)
          | Some (_, s0, src0) =>
              if negb (size_equal s0 src0 s src) then Throw
              else if negb (length s =? length s0)%nat then Throw
              else parse (S k) sh' ix' (fa, sl, b1 || sl)
          end)
      | ASlice _ => parse (S k) sh' ix' (fa, sl || match fa with Some _ => true | None => false end, b1)
      end
  | _, _ => Ok st
  end.

(** The lengths of the sliced axes. *)
Fixpoint slice_dims (spec : list bool) (sh : list Z) : list Z :=
  match spec, sh with
  | b :: spec', d :: sh' => if b then slice_dims spec' sh' else d :: slice_dims spec' sh'
  | _, _ => []
  end.
(** The output shape of bullet 2 mode, 373-404: the first array's shape takes the place of the first array. *)
Fixpoint b2_shape (hit : bool) (ishape : list Z) (spec : list bool) (sh : list Z) : list Z :=
  match spec, sh with
  | b :: spec', d :: sh' => if b then (if hit then [] else ishape) ++ b2_shape true ishape spec' sh'
                            else d :: b2_shape hit ishape spec' sh'
  | _, _ => []
  end.

(** [IndexParser_], 217-425.  An array without axes passes with [first_array_index] not initialised,
    which the node reads when it is initialised: undefined behaviour. *)
Definition adv_new (ix : list aindex) : res adv :=
  if negb (length ashape =? length ix)%nat then Throw
  else if (length ashape =? 0)%nat then UB
  else rbind (parse 0 ashape ix (None, false, false)) (fun st =>
  let '(fa, _, b1) := st in
  match fa with
  | None => Throw
  | Some (first, ishape, _) =>
      let spec := map is_arr ix in
      let lead := hd false spec in
      if b1 && dynamic ashape && negb lead then Throw
      else
      let b1 := b1 || lead || (length ishape =? 0)%nat in
      if (1 <? length ishape)%nat then Throw
      else if dbg && negb (forallb (fun x => match x with ASlice f => f | _ => true end) ix) then UB
      else
      if negb b1 && existsb (fun x => match x with AArr s _ _ _ _ => dynamic s | _ => false end) ix then Throw
      else
      let oshape := if b1 then ishape ++ slice_dims spec ashape else b2_shape false ishape spec ashape in
      let ostr := istrides oshape in
      let ss := if (length oshape =? 0)%nat then 1
                else if (length ishape =? 0)%nat then hd 0 ostr * hd 0 oshape
                else if b1 then nth (length ishape - 1) ostr 0 else nth first ostr 0 in
      Ok (Adv ashape spec b1 (length ishape) first ss ishape oshape ostr (istrides ashape))
  end).
End Parser.

(** [AdvancedIndexingNodeData], 80-215.  A NaN in [data] is [None]. *)
Record gdata := GData { a_dat : list (option num); a_dif : list (update num); a_odif : list (update Z);
                        a_osz : nat; a_dsz : nat; a_off : list Z; a_rev : Z -> list nat }.

Section Node.
Variables strict dbg : bool.
Variable A : adv.
(** Whether the indexed array is a constant node; then the reverse map is not maintained. *)
Variable konst : bool.

Definition chk {X} (c : bool) (k : res X) : res X := if dbg && negb c then UB else k.

(** [add_to_reverse], 203-207. *)
Definition rev_add (i : nat) (o : Z) (r : Z -> list nat) : Z -> list nat :=
  if konst then r else fun o' => if o' =? o then r o ++ [i] else r o'.
(** The overwriting of the first occurrence, 191-195; not finding it is undefined behaviour. *)
Fixpoint swap_in (i x : nat) (l : list nat) : option (list nat) :=
  match l with
  | [] => None
  | h :: t => if (h =? i)%nat then Some (x :: t) else option_map (cons h) (swap_in i x t)
  end.
(** [delete_from_reverse], 185-201. *)
Definition rev_del (i : nat) (o : Z) (r : Z -> list nat) : res (Z -> list nat) :=
  if konst then Ok r
  else match r o with
       | [] => UB
       | h :: t =>
           let l := h :: t in
           let b := last l O in
           match (if (b =? i)%nat then Some l else swap_in i b l) with
           | None => UB
           | Some l' => Ok (fun o' => if o' =? o then removelast l' else r o')
           end
       end.

(** The constructor of the state, 82-93. *)
Fixpoint rev_init (i : nat) (offs : list Z) (r : Z -> list nat) : Z -> list nat :=
  match offs with [] => r | o :: t => rev_init (S i) t (rev_add i o r) end.
Definition a_new (offs : list Z) (dat : list (option num)) : gdata :=
  GData dat [] [] (length offs) (length dat) offs (rev_init 0 offs (fun _ => [])).

(** [add_to_offset], 139-146. *)
Definition add_to_offset (i : nat) (delta : Z) (d : gdata) : res gdata :=
  rbind (rget (a_off d) i) (fun o =>
  rbind (rev_del i o (a_rev d)) (fun r =>
  Ok (GData (a_dat d) (a_dif d) (a_odif d ++ [change i o (o + delta)]) (a_osz d) (a_dsz d)
            (lset i (o + delta) (a_off d)) (rev_add i (o + delta) r)))).
(** [place_offset], 148-152. *)
Definition place_offset (o : Z) (d : gdata) : gdata :=
  GData (a_dat d) (a_dif d) (a_odif d ++ [placement (length (a_off d)) o]) (a_osz d) (a_dsz d)
        (a_off d ++ [o]) (rev_add (length (a_off d)) o (a_rev d)).
(** [remove_offset], 154-160. *)
Definition remove_offset (d : gdata) : res gdata :=
  match a_off d with
  | [] => UB
  | _ :: _ =>
      let i := (length (a_off d) - 1)%nat in
      let o := last (a_off d) 0 in
      rbind (rev_del i o (a_rev d)) (fun r =>
      Ok (GData (a_dat d) (a_dif d) (a_odif d ++ [removal i o]) (a_osz d) (a_dsz d) (removelast (a_off d)) r))
  end.

(** A conversion of a double to [ssize_t] whose result does not matter if it is NaN. *)
Definition cv (x : option num) : res Z := match x with Some q => Ok (ztrunc q) | None => if strict then UB else Ok 0 end.

(** One update of an indexing array, 731-765. *)
Definition idx_update (isfirst : bool) (stride : Z) (n : nat) (d : gdata) (u : update num) : res gdata :=
  if (n <=? uidx u)%nat then Ok d
  else if (uidx u =? length (a_off d))%nat then
    chk (placed u && isfirst)
      match uval u with
      | Some x => Ok (place_offset (ztrunc (zq stride * x)%Qc) d)
      | None => UB
      end
  else
    chk (uidx u <? length (a_off d))%nat
      (rbind (cv (uold u)) (fun ov => rbind (cv (uval u)) (fun nv =>
       let ov := if placed u then 0 else ov in
       let nv := if placed u then nv else if removed u then 0 else nv in
       add_to_offset (uidx u) (stride * (nv - ov)) d))).
Fixpoint rem_offsets (k : nat) (d : gdata) : res gdata :=
  match k with O => Ok d | S k' => rbind (remove_offset d) (rem_offsets k') end.
(** One indexing array, 722-774. *)
Definition idx_array (isfirst : bool) (stride : Z) (n : nat) (d : gdata) (p : pin num) : res gdata :=
  chk (length (pview p) =? n)%nat
  (rbind (rfold (idx_update isfirst stride n) d (pdiff p)) (fun d1 =>
   if isfirst then rem_offsets (length (a_off d1) - n) d1 else Ok d1)).
(** The loop over the axes, 722-775. *)
Fixpoint idx_arrays (k : nat) (spec : list bool) (str : list Z) (n : nat) (d : gdata) (ps : list (pin num)) : res gdata :=
  match spec, str with
  | [], _ => Ok d
  | true :: spec', s :: str' =>
      match ps with
      | p :: ps' => rbind (idx_array (k =? ad_first A)%nat s n d p) (fun d1 => idx_arrays (S k) spec' str' n d1 ps')
      | [] => UB
      end
  | false :: spec', _ :: str' => idx_arrays (S k) spec' str' n d ps
  | _ :: _, [] => UB
  end.

(** [fill_subspace_recurse], 527-570: the positions visited, as (position in the output, position in the
    array), from axis [k] and output axis [od], backwards if [back].  (The output axis is in range:
    assertion of line 552.) *)
Fixpoint visits (back : bool) (spec : list bool) (sh istr : list Z) (k od : nat) (dst src : Z) : list (Z * Z) :=
  match spec, sh, istr with
  | true :: spec', _ :: sh', _ :: istr' =>
      visits back spec' sh' istr' (S k) (if negb (ad_b1 A) && (k =? ad_first A)%nat then S od else od) dst src
  | false :: spec', d :: sh', s :: istr' =>
      flat_map (fun i => visits back spec' sh' istr' (S k) (S od) (dst + Z.of_nat i * nth od (ad_ostr A) 0) (src + Z.of_nat i * s))
               (if back then rev (seq 0 (Z.to_nat d)) else seq 0 (Z.to_nat d))
  | _, _, _ => [(dst, src)]
  end.

Inductive fill := FChange | FPlace | FRemove.
(** The base case, 535-554. *)
Definition fill_point (f : fill) (a : list num) (d : gdata) (p : Z * Z) : res gdata :=
  let '(dst, src) := p in
  let upd dat dif := GData dat dif (a_odif d) (a_osz d) (a_dsz d) (a_off d) (a_rev d) in
  match f with
  | FChange =>
      rbind (zget a src) (fun v => rbind (zget (a_dat d) dst) (fun o =>
      Ok (upd (lset (Z.to_nat dst) (Some v) (a_dat d)) (a_dif d ++ [Upd (Z.to_nat dst) o (Some v)]))))
  | FPlace =>
      rbind (zget a src) (fun v =>
      if dst <? 0 then UB
      else chk (dst =? Z.of_nat (length (a_dat d)))
        (Ok (upd (a_dat d ++ [Some v]) (a_dif d ++ [placement (Z.to_nat dst) v]))))
  | FRemove =>
      rbind (if strict then rbind (zget a src) (fun _ => Ok tt) else Ok tt) (fun _ =>
      chk (dst =? Z.of_nat (length (a_dat d)) - 1)
        (rbind (zget (a_dat d) dst) (fun o =>
         Ok (upd (removelast (a_dat d)) (a_dif d ++ [Upd (Z.to_nat dst) o None])))))
  end.

(** [array_ptr_->shape(state)]. *)
Definition cur_shape (a : list num) : list Z :=
  match ad_shape A with
  | d :: sh => if d <? 0 then Z.quot (Z.of_nat (length a)) (fold_left Z.mul sh 1) :: sh else d :: sh
  | [] => []
  end.
Definition is_back (f : fill) : bool := match f with FRemove => true | _ => false end.
(** [fill_subspace], 502-512. *)
Definition fill_subspace (f : fill) (a : list num) (off : Z) (i : nat) (d : gdata) : res gdata :=
  rfold (fill_point f a) d
    (visits (is_back f) (ad_spec A) (cur_shape a) (ad_istr A) 0 (if ad_b1 A then ad_ind A else 0) (Z.of_nat i * ad_ss A) off).
(** [fill_axis0_subspace], 514-525. *)
Definition fill_axis0 (f : fill) (a : list num) (ax0 off : Z) (i : nat) (d : gdata) : res gdata :=
  rfold (fill_point f a) d
    (visits (is_back f) (tl (ad_spec A)) (tl (cur_shape a)) (tl (ad_istr A)) 1 1
            (ax0 * hd 0 (ad_ostr A) + Z.of_nat i * ad_ss A) (ax0 * hd 0 (ad_istr A) + off)).

(** The offsets of [initialize_state], 586-602: the fraction is dropped at each addition. *)
Fixpoint init_offs (spec : list bool) (str : list Z) (ps : list (pin num)) (offs : list Z) : res (list Z) :=
  match spec, str with
  | [], _ => Ok offs
  | true :: spec', s :: str' =>
      match ps with
      | p :: ps' =>
          if (length (pview p) =? length offs)%nat
          then init_offs spec' str' ps' (map (fun ox => ztrunc (zq (fst ox) + snd ox * zq s)%Qc) (combine offs (pview p)))
          else UB
      | [] => UB
      end
  | false :: spec', _ :: str' => init_offs spec' str' ps offs
  | _ :: _, [] => UB
  end.
(** [initialize_state], 572-625; the predecessors are the array and the indexing arrays in order
    (466-472).  [fill_subspace] without a list of updates, 491-500, is the changing one without the
    updates. *)
Definition adv_init (pins : list (pin num)) : res gdata :=
  match pins with
  | pa :: ps =>
      rbind (rget ps 0) (fun p0 =>
      let size := length (pview p0) in
      rbind (if (size =? 0)%nat then Ok [] else init_offs (ad_spec A) (ad_istr A) ps (repeat 0 size)) (fun offs =>
      if hd 0 (ad_istr A) =? 0 then UB
      else
      let ax0 := Z.quot (Z.of_nat (length (pview pa))) (hd 0 (ad_istr A)) in
      let dsize := if ad_b1 A then Z.of_nat size * ad_ss A else ax0 * hd 0 (ad_ostr A) in
      if dsize <? 0 then Throw
      else
      rbind (rfold (fun d io => fill_subspace FChange (pview pa) (snd io) (fst io) d)
                   (a_new offs (repeat (Some 0%Qc) (Z.to_nat dsize)))
                   (combine (seq 0 size) offs)) (fun d =>
      Ok (a_new offs (a_dat d)))))
  | [] => UB
  end.

(** [get_mapped_index], 660-688.  (The mapped axis is in range: assertion of line 683.) *)
Fixpoint mapped (spec : list bool) (istr sh : list Z) (ma : nat) (hit : bool) (i : Z) (acc : Z * Z) : res (Z * Z) :=
  match spec, istr, sh with
  | b :: spec', s :: istr', d :: sh' =>
      if (s =? 0) || (d =? 0) then UB
      else
      let ax := Z.rem (Z.quot i s) d in
      if b then mapped spec' istr' sh' (if hit then ma else (ma + ad_ind A)%nat) true i (fst acc + ax * s, snd acc)
      else mapped spec' istr' sh' (S ma) hit i (fst acc, snd acc + ax * nth ma (ad_ostr A) 0)
  | _, _, _ => Ok acc
  end.

Definition olda (b2 : bool) (x : option num) : option num := if b2 then Some (match x with Some v => v | None => 0%Qc end) else x.
Definition veq (x y : option num) : bool := match x, y with Some a, Some b => qeqb a b | _, _ => false end.
(** One mapped position of an update of the array, 811-818 and 879-887. *)
Definition par_point (b2 : bool) (upd : list nat) (sub : Z) (u : update num) (d : gdata) (i : nat) : res gdata :=
  if existsb (Nat.eqb i) upd then Ok d
  else
  let k := Z.of_nat i * ad_ss A + sub in
  rbind (zget (a_dat d) k) (fun cur =>
  chk (veq cur (uold u) || (b2 && placed u && match cur with None => true | Some _ => false end))
    (Ok (GData (lset (Z.to_nat k) (uval u) (a_dat d)) (a_dif d ++ [Upd (Z.to_nat k) (olda b2 (uold u)) (olda b2 (uval u))])
               (a_odif d) (a_osz d) (a_dsz d) (a_off d) (a_rev d)))).
(** One update of the array, 799-819 and 866-888; [lim] is the size above which it is skipped. *)
Definition par_update (b2 : bool) (upd : list nat) (lim : nat) (a : list num) (d : gdata) (u : update num) : res gdata :=
  if (lim <=? uidx u)%nat then Ok d
  else rbind (mapped (ad_spec A) (ad_istr A) (cur_shape a) 0 false (Z.of_nat (uidx u)) (0, 0)) (fun os =>
       chk (negb konst)
         (rfold (par_point b2 upd (snd os) u) d (a_rev d (fst os)))).

(** The normal updates and the placements, 785-796. *)
Fixpoint b1_fill (a : list num) (us : list (update Z)) (d : gdata) : res (gdata * list nat) :=
  match us with
  | [] => Ok (d, [])
  | u :: us' =>
      match uold u, uval u with
      | _, None => Ok (d, [])
      | None, Some v => rbind (fill_subspace FPlace a v (uidx u) d) (fun d1 =>
                        rbind (b1_fill a us' d1) (fun r => Ok (fst r, uidx u :: snd r)))
      | Some _, Some v => rbind (fill_subspace FChange a v (uidx u) d) (fun d1 =>
                          rbind (b1_fill a us' d1) (fun r => Ok (fst r, uidx u :: snd r)))
      end
  end.
(** The removals, 799-802: [offset_update.value] is NaN. *)
Fixpoint b1_remove (a : list num) (us : list (update Z)) (d : gdata) : res gdata :=
  match us with
  | [] => Ok d
  | u :: us' =>
      match uval u with
      | None => if strict then UB else rbind (fill_subspace FRemove a 0 (uidx u) d) (b1_remove a us')
      | Some _ => Ok d
      end
  end.
(** Bullet 1 mode, 781-820. *)
Definition b1_prop (pa : pin num) (us : list (update Z)) (d : gdata) : res gdata :=
  rbind (b1_fill (pview pa) us d) (fun r =>
  rbind (b1_remove (pview pa) (rev us) (fst r)) (fun d2 =>
  rfold (par_update false (snd r) (length (pview pa)) (pview pa)) d2 (pdiff pa))).

(** Bullet 2 mode, 821-889. *)
Definition offs_fill (f : fill) (a : list num) (ax0 : nat) (d : gdata) (i : nat) : res gdata :=
  rbind (rget (a_off d) i) (fun o => fill_axis0 f a (Z.of_nat ax0) o i d).
Definition b2_prop (pa : pin num) (us : list (update Z)) (d : gdata) : res gdata :=
  let a := pview pa in
  if hd 0 (ad_istr A) =? 0 then UB
  else
  let newp := Z.of_nat (length a) in
  let oldp := newp - psdiff pa in
  let olds := Z.to_nat (Z.quot oldp (hd 0 (ad_istr A))) in
  let news := Z.to_nat (Z.quot newp (hd 0 (ad_istr A))) in
  let n := length (a_off d) in
  rbind (rfold (fun d ax => rfold (offs_fill FPlace a ax) d (seq 0 n)) d (seq olds (news - olds))) (fun d1 =>
  rbind (rfold (fun d ax => rfold (offs_fill FRemove a ax) d (rev (seq 0 n))) d1 (rev (seq news (olds - news)))) (fun d2 =>
  rbind (rfold (fun d u => chk (match uold u, uval u with Some _, Some _ => true | _, _ => false end || (Nat.min news olds =? 0)%nat)
                 (match uval u with
                  | Some v => rfold (fun d ax => fill_axis0 FChange a (Z.of_nat ax) v (uidx u) d) d (seq 0 (Nat.min news olds))
                  | None => if (Nat.min news olds =? 0)%nat then Ok d else UB
                  end)) d2 us) (fun d3 =>
  rfold (par_update true (map (@uidx Z) us) (Z.to_nat (Z.min newp oldp)) a) d3 (pdiff pa)))).

(** [propagate], 690-900. *)
Definition adv_prop (d : gdata) (pins : list (pin num)) : res gdata :=
  match pins with
  | pa :: ps =>
      chk (match a_dif d with [] => true | _ => false end)
      (rbind (rget ps 0) (fun p0 =>
       rbind (idx_arrays 0 (ad_spec A) (ad_istr A) (length (pview p0)) d ps) (fun d1 =>
       match deduplicate_diff Z.eqb (a_odif d1) with
       | None => UB
       | Some us =>
           let d2 := GData (a_dat d1) (a_dif d1) us (a_osz d1) (a_dsz d1) (a_off d1) (a_rev d1) in
           if ad_b1 A then b1_prop pa us d2 else b2_prop pa us d2
       end)))
  | [] => UB
  end.

(** [commit], 95-100. *)
Definition adv_commit (d : gdata) : gdata :=
  GData (a_dat d) [] [] (length (a_off d)) (length (a_dat d)) (a_off d) (a_rev d).

(** [revert], 102-137. *)
Definition undo_off (s : list Z * (Z -> list nat)) (u : update Z) : res (list Z * (Z -> list nat)) :=
  let '(off, r) := s in
  rbind (match uold u with Some o => Ok o | None => if strict then UB else Ok 0 end) (fun o =>
  if (uidx u <? length off)%nat then
    rbind (match uval u with Some v => rev_del (uidx u) v r | None => Ok r end) (fun r1 =>
    Ok (lset (uidx u) o off, match uold u with Some o => rev_add (uidx u) o r1 | None => r1 end))
  else UB).
Definition undo_dat (dat : list (option num)) (u : update num) : res (list (option num)) :=
  if (uidx u <? length dat)%nat then Ok (lset (uidx u) (uold u) dat) else UB.
Definition adv_revert (d : gdata) : res gdata :=
  let off := if (length (a_off d) <? a_osz d)%nat then resize (a_osz d) 0 (a_off d) else a_off d in
  let dat := if (length (a_dat d) <? a_dsz d)%nat then resize (a_dsz d) (Some 0%Qc) (a_dat d) else a_dat d in
  rbind (rfold undo_off (off, a_rev d) (rev (a_odif d))) (fun or =>
  rbind (rfold undo_dat dat (rev (a_dif d))) (fun dat2 =>
  Ok (GData (if (a_dsz d <? length dat2)%nat then resize (a_dsz d) (Some 0%Qc) dat2 else dat2) [] []
            (a_osz d) (a_dsz d)
            (if (a_osz d <? length (fst or))%nat then resize (a_osz d) 0 (fst or) else fst or) (snd or)))).

(** [buff], [diff], [size_diff] (484-489, 902-910); a NaN in the data is not a view. *)
Definition adv_out (d : gdata) (_ : list (pin num)) : option (pin num) :=
  match all_some (a_dat d) with
  | Some v => Some (Pin v (a_dif d) (if dynamic (ad_oshape A) then Z.of_nat (length (a_dat d)) - Z.of_nat (a_dsz d) else 0))
  | None => None
  end.

Definition adv_node : node num :=
  {| nd_shape := ad_oshape A;
     nd_pre := ad_shape A :: repeat (ad_ishape A) (length (filter (fun b => b) (ad_spec A)));
     nd_ST := gdata; nd_init := adv_init; nd_out := adv_out; nd_prop := adv_prop;
     nd_commit := adv_commit; nd_revert := adv_revert |}.
End Node.
