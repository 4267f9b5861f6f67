(** Model of [BasicIndexingNode], the state-dependent part: src/nodes/indexing.cpp:1028-1116, 1182-1515,
    1585-1598.  The array viewed is contiguous (the constructor insists), so its memory is its list of
    elements; reading outside it is undefined.  [std::vector::assign] over a pair of iterators is
    modelled as reading [size] elements. *)
From Verif Require Import Base SliceModel ShapeModel StateDataModel NodeSpec BinaryModel BasicModel.
Local Open Scope Z_scope.

(** The constructor, 1030-1043: what [IndexParser_] leaves, and [contiguous_]. *)
Definition basic_new (size : Z) (shape strides : list Z) (contiguous : bool) (idx : list sidx) : res (parsed * bool) :=
  rbind (parse size shape strides contiguous idx) (fun p =>
    match is_contiguous (p_shape p) (p_strides p) with Some b => Ok (p, b) | None => UB end).

(** A node whose methods may all read the predecessors, as a view's do: [commit] and [revert] see them
    after their own [commit] and [revert]. *)
Record vnode (V : Type) := VNode {
  vn_shape : list Z;
  vn_pre : list (list Z);
  vn_ST : Type;
  vn_init : list (pin V) -> res vn_ST;
  vn_out : vn_ST -> list (pin V) -> option (pin V);
  vn_prop : vn_ST -> list (pin V) -> res vn_ST;
  vn_commit : vn_ST -> list (pin V) -> res vn_ST;
  vn_revert : vn_ST -> list (pin V) -> res vn_ST }.
Arguments VNode {V}.
Arguments vn_shape {V}.
Arguments vn_pre {V}.
Arguments vn_ST {V}.
Arguments vn_init {V}.
Arguments vn_out {V}.
Arguments vn_prop {V}.
Arguments vn_commit {V}.
Arguments vn_revert {V}.

Section View.
Context {V : Type}.
Variable veqb : V -> V -> bool.
(** Whether assertions are compiled in. *)
Variable dbg : bool.
(** The static shape of the array; [array_ptr_] is otherwise seen through its [pin]. *)
Variable ps : list Z.
Variable p : parsed.
Variable contiguous : bool.

(** [BasicIndexingNodeData], 1045-1076.  [previous_size] of a fixed-size view is left uninitialised and
    not read before [commit]. *)
Record bst := BSt { b_diff : list (update V); b_prev : Z; b_n0 : Z; b_first : slice; b_cache : list V }.

(** [dynamic()]: [size_] is negative. *)
Definition vdyn : bool := shape_to_size (p_shape p) <? 0.

Definition chk {A} (c : bool) (k : res A) : res A := if dbg && negb c then UB else k.

(** [update_dynamic_shape], 1078-1093; [array_ptr_->shape(state)[0]] is the number of rows. *)
Definition rows (a : list V) : Z := Z.of_nat (length a) / fold_left Z.mul (tl ps) 1.
Definition update_dynamic_shape (st : bst) (a : list V) : res bst :=
  match p_axis0 p with
  | None => UB
  | Some s => rbind (fit s (rows a)) (fun f => rbind (slice_size f) (fun n =>
                Ok (BSt (b_diff st) (b_prev st) n f (b_cache st))))
  end.

(** [size(state)], 1511-1515. *)
Definition bsize (st : bst) : Z :=
  if vdyn then shape_to_size (b_n0 st :: tl (p_shape p)) else shape_to_size (p_shape p).
(** [size_diff], 1585-1590. *)
Definition bsize_diff (st : bst) : Z := if vdyn then bsize st - b_prev st else 0.
(** [dynamic_start], 1195-1197, and [buff], 1095-1103, relative to the array's. *)
Definition dynamic_start (z : Z) : Z := Z.quot (z * hd 0 (p_strides p)) itemsize.
Definition bbuff (st : bst) : Z := p_start p + if vdyn then dynamic_start (sstart (b_first st)) else 0.
(** [begin], [end], array.hpp:763-767. *)
Definition bbegin (st : bst) : iter := it_begin contiguous (bbuff st) (p_shape p) (p_strides p).
Definition at_ptr (a : list V) (z : Z) : option V := if z <? 0 then None else nth_error a (Z.to_nat z).
(** The elements from [begin] to [end]. *)
Definition bview (st : bst) (a : list V) : option (list V) :=
  all_some (map (fun k => at_ptr a (it_ptr (Nat.iter k it_inc (bbegin st)))) (seq 0 (Z.to_nat (bsize st)))).
Definition vget {A} (o : option A) (k : A -> res bst) : res bst := match o with Some x => k x | None => UB end.

(** [initialize_state], 1175-1193. *)
Definition view_init (a : list V) : res bst :=
  let st := BSt [] 0 (hd 0 (p_shape p)) (Slice 0 0 1) [] in
  if vdyn then
    rbind (update_dynamic_shape st a) (fun st =>
    let st := BSt (b_diff st) (bsize st) (b_n0 st) (b_first st) (b_cache st) in
    match p_axis0 p with
    | None => UB
    | Some s => if sstart s <? 0
                then vget (bview st a) (fun c => Ok (BSt (b_diff st) (b_prev st) (b_n0 st) (b_first st) c))
                else Ok st
    end)
  else Ok st.

(** [commit], 1105-1111. *)
Definition view_commit (st : bst) (a : list V) : res bst :=
  vget (bview st a) (fun c => Ok (BSt [] (bsize st) (b_n0 st) (b_first st) c)).

(** [revert], 1497-1509.  Growing the cache would pad it: the pad is not modelled (undefined here). *)
Definition view_revert (st : bst) (a : list V) : res bst :=
  let st := BSt [] (b_prev st) (b_n0 st) (b_first st) (b_cache st) in
  if vdyn then
    rbind (update_dynamic_shape st a) (fun st =>
    match p_axis0 p with
    | None => UB
    | Some s =>
        if sstart s <? 0 then
          chk contiguous
            (if Z.of_nat (length (b_cache st)) <? b_prev st then UB
             else Ok (BSt (b_diff st) (b_prev st) (b_n0 st) (b_first st) (firstn (Z.to_nat (b_prev st)) (b_cache st))))
        else Ok st
    end)
  else Ok st.

(** [get_smallest_size_during_diff], 1199-1213. *)
Definition smallest_size (initial : Z) (us : list (update V)) : Z :=
  snd (fold_left (fun (c : Z * Z) u => let '(size, m) := c in
        if placed u then (size + 1, m)
        else if removed u then (size - 1, Z.min (size - 1) m)
        else (size, m)) us (initial, initial)).

(** The three loops comparing with the cache, 1233-1249. *)
Fixpoint cache_overlap (i : nat) (cache new : list V) : list (update V) :=
  match cache, new with
  | c :: cs, x :: xs => if veqb c x then cache_overlap (S i) cs xs else change i c x :: cache_overlap (S i) cs xs
  | _, _ => []
  end.
Fixpoint cache_grown (i : nat) (new : list V) : list (update V) :=
  match new with [] => [] | x :: xs => placement i x :: cache_grown (S i) xs end.
Fixpoint cache_shrunk (i : nat) (cache : list V) : list (update V) :=
  match cache with [] => [] | c :: cs => cache_shrunk (S i) cs ++ [removal i c] end.
Definition cache_diff (cache new : list V) : list (update V) :=
  let i := Nat.min (length cache) (length new) in
  cache_overlap 0 cache new ++ cache_grown i (skipn i new) ++ cache_shrunk i (skipn i cache).

(** Dynamic, contiguous, negative start: 1220-1252. *)
Definition prop_cached (s : slice) (st : bst) (q : pin V) : res bst :=
  let a := pview q in
  chk (p_start p =? 0) (
  rbind (fit s (Z.of_nat (length a) - psdiff q)) (fun f => rbind (slice_size f) (fun n0 =>
  chk (Z.of_nat (length (b_cache st)) =? n0) (
  rbind (update_dynamic_shape st a) (fun st =>
  vget (bview st a) (fun v =>
  Ok (BSt (cache_diff (b_cache st) v) (b_prev st) (b_n0 st) (b_first st) (b_cache st)))))))).

(** The slice of the flat array, 1321-1329. *)
Definition flat_slice (s : slice) (size : Z) : res slice :=
  rbind (fit s size) (fun f => rbind (slice_size f) (fun n =>
    if n =? 0 then mk_slice (Some (sstart s)) (Some (sstart s)) None else Ok f)).

(** Whole numbers from [lo] up to [hi], excluded. *)
Definition zrange (lo hi : Z) : list Z := map (fun i => lo + Z.of_nat i) (seq 0 (Z.to_nat (hi - lo))).

(** The body of the loop 1376-1408.  [a]: where the slice starts; [ds], [de], [dn]: the delta; [frs]:
    where the false removals start. *)
Definition dyn_step (shrinking : bool) (a ds de dn frs : Z) (diff : list (update V)) (u : update V) : res (list (update V)) :=
  let i := Z.of_nat (uidx u) in
  if shrinking && ((ds <=? i) && (i <? de)) then
    let k := Z.to_nat (de - i - 1) in
    match nth_error diff k with
    | None => UB
    | Some e => match uold e with
                | Some _ => Ok diff
                | None => chk (Z.of_nat (uidx e) =? i - a) (Ok (lset k (Upd (uidx e) (uold u) (uval e)) diff))
                end
    end
  else if (i <? ds) && (frs <=? i) then
    let k := Z.to_nat (dn + i - frs) in
    match nth_error diff k with
    | None => UB
    | Some e =>
        chk (Z.of_nat (uidx e) =? i - a) (
        match uold e with
        | Some _ => Ok (lset k (Upd (uidx e) (uold e) (uval u)) diff)
        | None => chk (match uold u with Some _ => true | None => false end)
                      (Ok (lset k (Upd (uidx e) (uold u) (uval u)) diff))
        end)
    end
  else if (i <? ds) && (a <=? i) then Ok (diff ++ [Upd (Z.to_nat (i - a)) (uold u) (uval u)])
  else Ok diff.

(** The old values missing, 1410-1420. *)
Definition fill_old (de : Z) (v : list V) (diff : list (update V)) (i : nat) : res (list (update V)) :=
  match nth_error diff i with
  | None => UB
  | Some e => match uold e with
              | Some _ => Ok diff
              | None => match at_ptr v (de - Z.of_nat i - 1) with
                        | Some x => Ok (lset i (Upd (uidx e) (Some x) (uval e)) diff)
                        | None => UB
                        end
              end
  end.

(** Dynamic, contiguous, start not negative: 1253-1422. *)
Definition prop_dyn (s : slice) (st : bst) (q : pin V) : res bst :=
  let v := pview q in
  let size := Z.of_nat (length v) in
  let old_size := size - psdiff q in
  chk (p_start p =? 0) (
  rbind (flat_slice s old_size) (fun prev => rbind (slice_size prev) (fun nprev =>
  rbind (flat_slice s size) (fun new => rbind (slice_size new) (fun nnew =>
  let smallest := smallest_size old_size (pdiff q) in
  let growing := nprev <? nnew in
  let shrinking := nnew <? nprev in
  let ds := if growing then sstop prev else sstop new in
  let de := if growing then sstop new else if shrinking then sstop prev else sstop new in
  rbind (slice_size (Slice ds de 1)) (fun dn =>
  let a := sstart new in
  let frs := Z.max smallest a in
  let frn := Z.max 0 (ds - frs) in
  let delta := if growing then zrange ds de else if shrinking then rev (zrange ds de) else [] in
  (* 1354-1374: the entries of the delta, with the new values when growing *)
  rbind (rfold (fun l i => if growing
                           then match at_ptr v i with Some x => Ok (l ++ [Upd (Z.to_nat (i - a)) None (Some x)]) | None => UB end
                           else Ok (l ++ [Upd (Z.to_nat (i - a)) None None])) [] delta) (fun d0 =>
  let d1 := d0 ++ map (fun i => Upd (Z.to_nat (i - a)) None None) (zrange frs (frs + frn)) in
  rbind (rfold (dyn_step shrinking a ds de dn frs) d1 (pdiff q)) (fun d2 =>
  rbind (if shrinking then rfold (fill_old de v) d2 (seq 0 (Z.to_nat dn)) else Ok d2) (fun d3 =>
  update_dynamic_shape (BSt d3 (b_prev st) (b_n0 st) (b_first st) (b_cache st)) v))))))))).

(** Fixed size, contiguous: 1423-1439. *)
Definition prop_offset (st : bst) (q : pin V) : res bst :=
  let start := p_start p in
  let stop := start + bsize st in
  chk (0 <=? start) (chk (start <=? stop) (chk (stop <=? Z.of_nat (length (pview q)))
  (Ok (BSt (b_diff st ++ flat_map (fun u => let i := Z.of_nat (uidx u) in
              if i <? start then [] else if stop <=? i then [] else [Upd (Z.to_nat (i - start)) (uold u) (uval u)]) (pdiff q))
           (b_prev st) (b_n0 st) (b_first st) (b_cache st))))).

(** The loop over the strides, 1468-1482 (zero would divide by zero): [None] is [skip]. *)
Fixpoint through (strides : list Z) (index : Z) : res (option Z) :=
  match strides with
  | [] => Ok (Some index)
  | s :: t => let div := Z.quot s itemsize in
              if div =? 0 then UB
              else if negb (Z.rem index div =? 0) then Ok None
              else through t (Z.quot index div)
  end.
(** The body of the loop 1462-1488. *)
Definition strided_step (start stop size : Z) (diff : list (update V)) (u : update V) : res (list (update V)) :=
  let i := Z.of_nat (uidx u) in
  if i <? start then Ok diff else if stop <=? i then Ok diff else
  rbind (through (p_strides p) (i - start)) (fun o =>
    match o with
    | None => Ok diff
    | Some j => chk ((0 <=? j) && (j <? size)) (Ok (diff ++ [Upd (Z.to_nat j) (uold u) (uval u)]))
    end).
(** Not contiguous, 1441-1488. *)
Definition prop_strided (st : bst) (q : pin V) : res bst :=
  chk (negb contiguous) (
  rbind (if vdyn then update_dynamic_shape st (pview q) else Ok st) (fun st =>
  let start := p_start p in
  vget (it_add (bbegin st) (bsize st)) (fun e =>
  let stop := it_ptr e - it_ptr (bbegin st) in
  chk (0 <=? start) (chk (start <=? stop) (chk (match p_shape p with [] => false | _ => true end)
  (chk (stop <=? Z.of_nat (length (pview q)) + Z.quot (hd 0 (p_strides p)) itemsize)
  (rbind (rfold (strided_step start stop (bsize st)) (b_diff st) (pdiff q)) (fun d =>
   Ok (BSt d (b_prev st) (b_n0 st) (b_first st) (b_cache st)))))))))).

(** [propagate], 1215-1495. *)
Definition view_prop (st : bst) (q : pin V) : res bst :=
  chk (match b_diff st with [] => true | _ => false end)
  (if contiguous && vdyn then
     match p_axis0 p with
     | None => UB
     | Some s => if sstart s <? 0 then prop_cached s st q else prop_dyn s st q
     end
   else if contiguous then prop_offset st q
   else if negb vdyn || match p_axis0 p with Some s => (0 <=? sstart s) && (0 <=? sstop s) | None => false end
   then prop_strided st q
   else chk false (Ok st)).

(** The node. *)
Definition one {A} (f : pin V -> res A) (pins : list (pin V)) : res A := match pins with [q] => f q | _ => UB end.
Definition view_node : vnode V :=
  {| vn_shape := p_shape p; vn_pre := [ps]; vn_ST := bst;
     vn_init := one (fun q => view_init (pview q));
     vn_out := fun st pins => match pins with
                              | [q] => option_map (fun v => {| pview := v; pdiff := b_diff st; psdiff := bsize_diff st |}) (bview st (pview q))
                              | _ => None
                              end;
     vn_prop := fun st => one (view_prop st);
     vn_commit := fun st => one (fun q => view_commit st (pview q));
     vn_revert := fun st => one (fun q => view_revert st (pview q)) |}.

End View.
