(** Model of what symbols store in a model file and of how they are made again from it
    (dwave/optimization/symbols.pyx, [_from_zipfile] and [_into_zipfile], and _model.pyx:111-216, 236-359), on the
    symbols of [PyModel].  [IoModel] has the file's frame: names, lines, archive, version; here are the entries.
    Simplifications: JSON and .npy give back what was stored; states are not stored; the header is C62's. *)
From Verif Require Import Base Num SliceModel ShapeModel StateDataModel BoundsModel NodeSpec BasicModel ViewModel NaryModel ReduceModel PermModel PartialModel PyModel EqModel.
Local Open Scope Z_scope.

(** The files of one symbol's directory: shape.json with a shape; axes.json; array.npy; shape.json with shape, lb, ub; with max_value, min_size, max_size;
    with the number of items and of parts; index.json; indices.json of views, and of advanced indexing, where
    (0, 0, 0) stands for a slice. *)
Inductive stored :=
| WNothing | WShape (sh : list Z) | WAxes (l : list nat) | WArray (sh : list Z) (v : list num) | WInteger (sh : list Z) (lo hi : Z) | WCollection (n mn mx : Z)
| WParts (n : Z) (k : nat) | WIndex (i : nat) | WBasic (l : list sidx) | WAdvanced (l : list (option nat)).
(** A line of nodetypes.txt, one of adj.adjlist without its number, and the directory. *)
Record entry := Entry { e_type : ptype; e_preds : list nat; e_stored : stored }.
Record file := File { f_entries : list entry; f_obj : option nat; f_cons : list nat }.

(** * Writing *)
(** [topological_index] after [lock]: the place in the order of the nodes. *)
Fixpoint pos (ord : list nat) (x : nat) : nat :=
  match ord with [] => 0%nat | y :: t => if (y =? x)%nat then 0%nat else S (pos t x) end.
(** The indices of AdvancedIndexing, symbols.pyx:529-547. *)
Fixpoint adv_indices (topo : nat -> nat) (spec : list bool) (idx : list nat) : res (list (option nat)) :=
  match spec, idx with
  | [], _ => Ok []
  | true :: r, y :: t => rbind (adv_indices topo r t) (fun l => Ok (Some (topo y) :: l))
  | true :: _, [] => UB
  | false :: r, _ => rbind (adv_indices topo r idx) (fun l => Ok (None :: l))
  end.
(** [_into_zipfile]: AdvancedIndexing 528-549; BasicIndexing 640-651; Constant 995-1012; DisjointBitSets and
    DisjointLists 1113-1138, 1372-1394; DisjointBitSet and DisjointList 1277-1296, 1530-1549; IntegerVariable
    1687-1698; BinaryVariable 716-738 and Reshape 2818-2820; PartialSum 2462-2464; ListVariable 1815-1828; SetVariable 2876-2890; nothing by default.  The largest element is one less than
    the number of items (collections.hpp:45), and sizes run from 0 to that number for a set (model.py:382-406).
    QuadraticModel is left out. *)
Definition into_zipfile (m : pym) (topo : nat -> nat) (s : sym) : res stored :=
  match s_cls s with
  | KConst v => Ok (WArray (s_shape s) v)
  | KInteger lo hi => Ok (WInteger (s_shape s) lo hi)
  | KBinary | KReshape => Ok (WShape (s_shape s))
  | KAxis a => Ok (WAxes [a])
  | KQuad _ _ => UB
  | KList => match s_shape s with [n] => Ok (WCollection ((n - 1) + 1) n n) | _ => UB end
  | KSet n => Ok (WCollection ((n - 1) + 1) 0 n)
  | KLists n k | KBits n k => Ok (WParts n k)
  | KListOf _ _ _ i | KBitOf _ _ _ i => Ok (WIndex i)
  | KBasic ix =>
      match s_pred s with
      | [x] =>
          rbind (node m x) (fun a =>
          let strides := shape_to_strides (s_shape a) in
          rbind (parse (shape_to_size (s_shape a)) (s_shape a) strides (s_contig a) ix) (fun p =>
          rbind (infer_indices (s_shape a) strides p) (fun l => Ok (WBasic l))))
      | _ => UB
      end
  | KAdv spec => rbind (adv_indices topo spec (tl (s_pred s))) (fun l => Ok (WAdvanced l))
  | _ => Ok WNothing
  end.
Definition write_entry (m : pym) (topo : nat -> nat) (x : nat) : res entry :=
  rbind (node m x) (fun s => rbind (into_zipfile m topo s) (fun w => Ok (Entry (type_of (s_cls s)) (map topo (s_pred s)) w))).
(** [is_decision]: the classes derived from DecisionNode. *)
Definition decision_cls (c : cls) : bool := match c with KInteger _ _ | KBinary | KList | KSet _ | KLists _ _ | KBits _ _ => true | _ => false end.
Definition num_decisions (m : pym) : nat := length (filter (fun s => decision_cls (s_cls s)) (p_syms m)).
(** [into_file], 312-350; [ord] is the nodes in their order. *)
Definition into_file (only_decision : bool) (m : pym) (ord : list nat) : res file :=
  let stop := if only_decision then num_decisions m else length (p_syms m) in
  rbind (rmap (write_entry m (pos ord)) (firstn stop ord)) (fun es =>
  Ok (File es (match p_obj m with Some x => if (pos ord x <? stop)%nat then Some (pos ord x) else None | None => None end)
              (filter (fun i => (i <? stop)%nat) (map (pos ord) (p_cons m))))).

(** * Reading *)
(** [successors()] of a node. *)
Definition successors (m : pym) (x : nat) : list nat :=
  filter (fun y => match nth_error (p_syms m) y with Some s => existsb (Nat.eqb x) (s_pred s) | None => false end) (seq 0 (length (p_syms m))).
(** [DisjointList.__init__] and [DisjointBitSet.__init__], symbols.pyx:1468-1488, 1215-1235; nodes: collections.cpp:442-453,
    700-710.  An argument of another type is a TypeError. *)
Definition disjoint_list (main i : nat) : py nat :=
  do s <- look main ;
  match s_cls s with
  | KLists n k => if negb (i <? k)%nat then raise else fun m =>
      let c := length (successors m main) in
      if (c <? i)%nat then Throw
      else if (i =? c)%nat then emit (KListOf main n k i) [main] [-1] true m
      else Ok (nth i (successors m main) 0%nat, m)
  | _ => raise
  end.
Definition disjoint_bit_set (main i : nat) : py nat :=
  do s <- look main ;
  match s_cls s with
  | KBits n k => if negb (i <? k)%nat then raise else fun m =>
      let c := length (successors m main) in
      if (c <? i)%nat then Throw
      else if (i =? c)%nat then emit (KBitOf main n k i) [main] [n] true m
      else Ok (nth i (successors m main) 0%nat, m)
  | _ => raise
  end.
(** Arguments of the other classes are declared as [ArraySymbol]: others are a TypeError. *)
Fixpoint array_symbols (xs : list nat) : py unit :=
  match xs with [] => ret tt | x :: t => do s <- look x ; if is_array_symbol (s_cls s) then array_symbols t else raise end.
(** [PartialSum.__init__], symbols.pyx:2435-2438. *)
Definition partial_sum (x : nat) (a : Z) : py nat :=
  do s <- look x ; do sh <- lift (pr_new (s_shape s) [a]) ; emit (KAxis (Z.to_nat a)) [x] sh true.
(** [_from_zipfile]: AdvancedIndexing 510-526; BasicIndexing 609-620; Constant 966-993; and next to the writing functions
    above; by default _model.pyx:728-746, the constructor with the predecessors as arguments, which refuses a
    wrong number of them.  A set of other sizes than [Model.set]'s is not among the symbols here: [UB]. *)
Definition from_zipfile (e : entry) : py nat :=
  match e_type e, e_preds e, e_stored e with
  | TConst, [], WArray sh v => constant sh v
  | TInteger, [], WInteger sh lo hi => integer sh lo hi
  | TBinary, [], WShape sh => binary sh
  | TList, [], WCollection n _ _ => list_var n
  | TSet, [], WCollection n mn mx => if (mn =? 0) && (mx =? n) then set_var n else fun _ => UB
  | TDisjointLists, [], WParts n k => emit (KLists n k) [] [-1] true
  | TDisjointBitSets, [], WParts n k => emit (KBits n k) [] [-1] true
  | TDisjointList, [main], WIndex i => disjoint_list main i
  | TDisjointBitSet, [main], WIndex i => disjoint_bit_set main i
  | TBasic, [x], WBasic l =>
      do _ <- array_symbols [x] ;
      basic x (map (fun i => match i with IInt z => PInt z | ISlice s => PSlice (Some (sstart s)) (Some (sstop s)) (Some (sstep s)) end) l)
  | TAdvanced, x :: _, WAdvanced l =>
      let ix := map (fun i => match i with Some y => PArr y | None => full end) l in
      do _ <- array_symbols (x :: arrays ix) ; advanced x ix
  | TPermutation, [x; o], WNothing => do _ <- array_symbols [x; o] ; permutation x o
  | TUn o, [x], WNothing => do _ <- array_symbols [x] ; unop o x
  | TBin o, [x; y], WNothing => do _ <- array_symbols [x; y] ; binop o x y
  | TNary o, xs, WNothing => do _ <- array_symbols xs ; nary o xs
  | TRed o, [x], WNothing => do _ <- array_symbols [x] ; red o x
  | TWhere, [c; x; y], WNothing => do _ <- array_symbols [c; x; y] ; where_ c x y
  | TReshape, [x], WShape sh => do _ <- array_symbols [x] ; reshape x sh
  | TPartialSum, [x], WAxes (a :: _) => do _ <- array_symbols [x] ; partial_sum x (Z.of_nat a)
  | TSize, [x], WNothing => do _ <- array_symbols [x] ; emit KSize [x] [] true
  | _, _, _ => raise
  end.
(** The loop over the lines, _model.pyx:156-182. *)
Fixpoint read_entries (lineno : nat) (es : list entry) : py unit :=
  match es with
  | [] => ret tt
  | e :: t => if forallb (fun p => (p <? lineno)%nat) (e_preds e) then (do _ <- from_zipfile e ; read_entries (S lineno) t) else raise
  end.
(** [from_file], 146-192; [minimize] and [add_constraint] take array symbols. *)
Definition from_file (f : file) : res pym :=
  match (do _ <- read_entries 0 (f_entries f) ;
         do _ <- match f_obj f with
                 | Some i => fun m => if (i <? length (p_syms m))%nat then (do _ <- array_symbols [i] ; minimize i) m else Throw
                 | None => ret tt
                 end ;
         pfor (f_cons f) (fun _ c => do _ <- array_symbols [c] ; add_constraint c) tt) no_model with
  | Ok (_, m) => Ok m
  | Throw => Throw
  | UB => UB
  end.

(** * Building *)
(** What the front end offers; every operand is an [ArraySymbol]. *)
Inductive fop :=
| FConst (sh : list Z) (v : list num) | FInteger (sh : list Z) (lo hi : Z) | FList (n : Z) | FSet (n : Z) | FLists (n : Z) (k : nat) | FBits (n : Z) (k : nat)
| FGet (x : nat) (ix : list pyidx) | FUn (o : uop) (x : nat) | FBin (o : bop) (x y : nat) | FNary (o : nop) (xs : list nat) | FInplace (o : nop) (x y : nat)
| FRed (o : rop) (x : nat) | FWhere (c x y : nat) | FSize (x : nat) | FPow (x : nat) (e : Z)
| FBinary (sh : list Z) | FReshape (x : nat) (sh : list Z) | FAxis (x : nat) (a : Z) | FMinimize (x : nat) | FConstraint (x : nat).
Definition operands (o : fop) : list nat :=
  match o with
  | FConst _ _ | FInteger _ _ _ | FBinary _ | FList _ | FSet _ | FLists _ _ | FBits _ _ => []
  | FGet x ix => x :: arrays ix
  | FUn _ x | FRed _ x | FSize x | FPow x _ | FReshape x _ | FAxis x _ | FMinimize x | FConstraint x => [x]
  | FBin _ x y | FInplace _ x y => [x; y]
  | FNary _ xs => xs
  | FWhere c x y => [c; x; y]
  end.
Definition void {A} (p : py A) : py unit := do _ <- p ; ret tt.
Definition perform (o : fop) : py unit :=
  do _ <- array_symbols (operands o) ;
  match o with
  | FConst sh v => void (constant sh v) | FInteger sh lo hi => void (integer sh lo hi) | FList n => void (list_var n) | FSet n => void (set_var n)
  | FLists n k => void (disjoint_lists n k) | FBits n k => void (disjoint_bit_sets n k)
  | FGet x ix => void (getitem x ix) | FUn o x => void (unop o x) | FBin o x y => void (binop o x y) | FNary o xs => void (nary o xs)
  | FInplace o x y => void (inplace o x y) | FRed o x => void (red o x) | FWhere c x y => void (where_ c x y) | FSize x => void (size x)
  | FBinary sh => void (binary sh) | FReshape x sh => void (reshape x sh) | FAxis x a => void (sum_axis x a)
  | FPow x e => void (pow x e) | FMinimize x => minimize x | FConstraint x => add_constraint x
  end.
Definition build (ops : list fop) : res pym :=
  match pfor ops (fun _ o => perform o) tt no_model with Ok (_, m) => Ok m | Throw => Throw | UB => UB end.
