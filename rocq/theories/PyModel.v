(** Model of the Python front end: symbols and the operations that build them
    (dwave/optimization/_model.pyx, model.py, mathematical.py, symbols.pyx).  A model is the list of its
    nodes in order of creation, and a symbol is a node's number: two Python objects for the same node are
    one symbol.  Nodes keep their class, predecessors, static shape and whether they are contiguous.
    Simplifications: the constructors' conditions on declared bounds, on integrality, on
    [logical()] and on state-dependent sizes are taken to hold (see C25, C35-C37, C39, C49 for
    those); the checks on shapes are made.  The model is not sorted while it is being built. *)
From Verif Require Import Base Num SliceModel ShapeModel StateDataModel NodeSpec BinaryModel BasicModel ViewModel ElemModel NaryModel
  ReduceModel BoundsModel PermModel AdvModel PartialModel QuadModel.
Local Open Scope Z_scope.

(** The class of a symbol, with what its constructor is given besides the predecessors.  [KAdv]: which
    indices are arrays.  [KListOf main n k i]: the [i]-th of the [k] lists of [n] items that [main] holds.
    [KAxis a]: PartialSum along axis [a].  [KQuad _ q]: QuadraticModel, whose node keeps
    the biases in [q]; and whether its operand was logical. *)
Inductive cls :=
| KConst (v : list num)
| KInteger (lo hi : Z) | KList | KSet (n : Z)
| KLists (n : Z) (k : nat) | KListOf (main : nat) (n : Z) (k i : nat) | KBits (n : Z) (k : nat) | KBitOf (main : nat) (n : Z) (k i : nat)
| KBasic (ix : list sidx) | KAdv (spec : list bool) | KPerm
| KUn (o : uop) | KBin (o : bop) | KNary (o : nop) | KRed (o : rop) | KWhere | KSize
| KBinary | KReshape | KAxis (a : nat) | KQuad (logical : bool) (q : qmodel).
Record sym := Sym { s_cls : cls; s_pred : list nat; s_shape : list Z; s_contig : bool }.
Record pym := Pym { p_syms : list sym; p_obj : option nat; p_cons : list nat }.
Definition no_model : pym := Pym [] None [].

(** Computations that build a model. *)
Definition py (A : Type) : Type := pym -> res (A * pym).
Definition ret {A} (a : A) : py A := fun m => Ok (a, m).
Definition bind {A B} (x : py A) (f : A -> py B) : py B := fun m =>
  match x m with Ok (a, m') => f a m' | Throw => Throw | UB => UB end.
Definition lift {A} (r : res A) : py A := fun m => rbind r (fun a => Ok (a, m)).
Definition raise {A} : py A := fun _ => Throw.
Notation "'do' x <- a ; b" := (bind a (fun x => b)) (at level 200, x pattern, a at level 100, b at level 200).
(** Python's [for]. *)
Fixpoint pfor {A B} (l : list A) (f : B -> A -> py B) (b : B) : py B :=
  match l with [] => ret b | x :: t => do b <- f b x ; pfor t f b end.
Definition look (x : nat) : py sym := fun m => match nth_error (p_syms m) x with Some s => Ok (s, m) | None => UB end.
Fixpoint looks (xs : list nat) : py (list sym) :=
  match xs with [] => ret [] | x :: t => do s <- look x ; do ss <- looks t ; ret (s :: ss) end.

(** [emplace_node], graph.hpp:224-240. *)
Definition emit (c : cls) (ps : list nat) (sh : list Z) (ct : bool) : py nat := fun m =>
  Ok (length (p_syms m), Pym (p_syms m ++ [Sym c ps sh ct]) (p_obj m) (p_cons m)).

(** * Constants and decisions *)
(** [Model.constant], model.py:133-153. *)
Definition constant (sh : list Z) (v : list num) : py nat := emit (KConst v) [] sh true.
(** [Model.integer], model.py:260-289, with both bounds.  symbols.pyx:1658 passes them as doubles and the
    constructor takes [std::optional<int>] (numbers.hpp:114-116): beyond the range of [int] the conversion is
    undefined.  Then numbers.hpp:66-68 and numbers.cpp:106-108. *)
Definition integer (sh : list Z) (lo hi : Z) : py nat :=
  let int z := (-2147483648 <=? z) && (z <=? 2147483647) in
  if int lo && int hi then
    if (hi <? lo) || (lo <? -2000000000) || (2000000000 <? hi) then raise else emit (KInteger lo hi) [] sh true
  else fun _ => UB.
(** [Model.binary], model.py:114-131, symbols.pyx:669-675; [_as_cppshape], symbols.pyx:198-217. *)
Definition binary (sh : list Z) : py nat := if existsb (fun d => d <? 0) sh then raise else emit KBinary [] sh true.
(** [Model.list] and [Model.set], model.py:291-308, 382-406; shapes: collections.hpp:83-84, 292, 309. *)
Definition list_var (n : Z) : py nat := emit KList [] [n] true.
Definition set_var (n : Z) : py nat := emit (KSet n) [] [if n =? 0 then 0 else -1] true.
(** [Model.disjoint_lists] and [Model.disjoint_bit_sets], model.py:155-228; shapes: collections.hpp.  (The symbol the parts
    come from is no array and has no shape; it gets that of the array that stands for it in GroupModel.) *)
Definition parts (one : nat -> cls) (sh : list Z) (main : nat) (k : nat) : py (list nat) :=
  pfor (seq 0 k) (fun xs i => do x <- emit (one i) [main] sh true ; ret (xs ++ [x])) [].
Definition disjoint_lists (n : Z) (k : nat) : py (nat * list nat) :=
  do main <- emit (KLists n k) [] [-1] true ; do xs <- parts (KListOf main n k) [-1] main k ; ret (main, xs).
Definition disjoint_bit_sets (n : Z) (k : nat) : py (nat * list nat) :=
  do main <- emit (KBits n k) [] [-1] true ; do xs <- parts (KBitOf main n k) [n] main k ; ret (main, xs).

(** * Indexing *)
(** What may appear between the brackets: [numbers.Integral], [slice], [ArraySymbol]. *)
Inductive pyidx := PInt (z : Z) | PSlice (start stop step : option Z) | PArr (x : nat).
Definition full : pyidx := PSlice None None None.
Definition is_full (i : pyidx) : bool := match i with PSlice None None None => true | _ => false end.
Definition is_sym (i : pyidx) : bool := match i with PArr _ => true | _ => false end.

(** [BasicIndexing.__init__], symbols.pyx:567-596. *)
Definition to_sidx (i : pyidx) : res sidx :=
  match i with
  | PInt z => Ok (IInt z)
  | PSlice a b c => rbind (mk_slice a b c) (fun s => Ok (ISlice s))
  | PArr _ => Throw
  end.
Definition basic (x : nat) (ix : list pyidx) : py nat :=
  do s <- look x ;
  do ci <- lift (rmap to_sidx ix) ;
  do r <- lift (basic_new (shape_to_size (s_shape s)) (s_shape s) (shape_to_strides (s_shape s)) (s_contig s) ci) ;
  emit (KBasic ci) [x] (p_shape (fst r)) (snd r).

(** [AdvancedIndexing.__init__], symbols.pyx:439-460.  That an index array declares bounds within the
    indexed axis (indexing.cpp:240-300, C35) is taken for granted here: symbols carry no bounds. *)
Definition aix (shapes : nat -> list Z) (i : pyidx) : res aindex :=
  match i with
  | PArr x => Ok (AArr (shapes x) 0 true 0%Qc (zq (-1)))
  | _ => if is_full i then Ok (ASlice true) else Throw
  end.
Definition arrays (ix : list pyidx) : list nat := flat_map (fun i => match i with PArr x => [x] | _ => [] end) ix.
Definition shape_at (m : pym) (x : nat) : list Z := match nth_error (p_syms m) x with Some s => s_shape s | None => [] end.
Definition advanced (x : nat) (ix : list pyidx) : py nat :=
  do s <- look x ; do _ <- looks (arrays ix) ;
  fun m => (do ai <- lift (rmap (aix (shape_at m)) ix) ;
            do r <- lift (adv_new true (s_shape s) (Some 0) ai) ;
            emit (KAdv (ad_spec r)) (x :: arrays ix) (ad_oshape r) true) m.
(** [Permutation.__init__], symbols.pyx:2485-2493. *)
Definition permutation (x o : nat) : py nat :=
  do s <- look x ; do t <- look o ;
  do _ <- lift (perm_new (match s_cls s with KConst _ => true | _ => false end) (s_shape s) (s_shape t) true (zq (-1))) ;
  emit KPerm [x; o] (s_shape s) true.

(** [_split_indices], _model.pyx:1066-1103. *)
Definition split_basic (i : pyidx) : pyidx := match i with PArr _ => full | _ => i end.
Definition split_adv (ix : list pyidx) : list pyidx :=
  flat_map (fun i => match i with PInt _ => [] | PSlice _ _ _ => [full] | PArr x => [PArr x] end) ix.
(** [ArraySymbol.__getitem__], _model.pyx:1145-1186; the index as a tuple. *)
Definition array_getitem (x : nat) (ix : list pyidx) : py nat :=
  do s <- look x ;
  let ix := ix ++ repeat full (length (s_shape s) - length ix) in
  if forallb (fun i => negb (is_sym i)) ix then basic x ix
  else if forallb (fun i => is_sym i || is_full i) ix then advanced x ix
  else do b <- basic x (map split_basic ix) ; advanced b (split_adv ix).
(** [AdvancedIndexing.__getitem__], symbols.pyx:462-497. *)
Definition getitem (x : nat) (ix : list pyidx) : py nat :=
  do s <- look x ;
  match s_cls s, s_pred s with
  | KAdv spec, a :: idx =>
      do sa <- look a ;
      match s_cls sa, s_shape sa, spec, idx, ix with
      | KConst _, [d0; d1], [true; false], [y], [i0; PArr z] =>
          if (d0 =? d1) && is_full i0 && (y =? z)%nat then permutation a z else array_getitem x ix
      | KConst _, [d0; d1], [false; true], [y], [PArr z; i1] =>
          if (d0 =? d1) && is_full i1 && (y =? z)%nat then permutation a z else array_getitem x ix
      | _, _, _, _, _ => array_getitem x ix
      end
  | _, _ => array_getitem x ix
  end.

(** * Operations *)
(** [Add], [LessEqual], ...: BinaryOpNode's constructor, mathematical.cpp:27-52. *)
Definition binop (o : bop) (x y : nat) : py nat :=
  do s <- look x ; do t <- look y ;
  do sh <- lift (BinaryModel.bin_new (s_shape s) (s_shape t)) ;
  emit (KBin o) [x; y] sh true.
(** [x >= y]: an [ArraySymbol] has no [__ge__], so Python calls [y.__le__(x)]. *)
Definition ge (x y : nat) : py nat := binop BLe y x.
(** [NaryAdd(x, y)], ...: NaryOpNode's constructor, mathematical.cpp:493-501. *)
Definition nary (o : nop) (xs : list nat) : py nat :=
  do ss <- looks xs ;
  do sh <- lift (nary_new (map s_shape ss)) ;
  emit (KNary o) xs sh true.
(** [NaryOpNode::add_node], mathematical.cpp:503-519, in a model that is not sorted. *)
Definition add_node (x y : nat) : py unit :=
  do s <- look x ; do t <- look y ;
  if dynamic (s_shape t) then raise
  else if negb (zlist_eqb (s_shape s) (s_shape t)) then raise
  else fun m => Ok (tt, Pym (lset x (Sym (s_cls s) (s_pred s ++ [y]) (s_shape s) (s_contig s)) (p_syms m)) (p_obj m) (p_cons m)).
(** [x += y] and [x *= y]: [__iadd__] and [__imul__], _model.pyx:1188-1204, symbols.pyx:2162-2167,
    2318-2323.  The result is what the variable is bound to afterwards. *)
Definition same_nop (o : nop) (c : cls) : bool :=
  match o, c with NAdd, KNary NAdd => true | NMul, KNary NMul => true | _, _ => false end.
Definition inplace (o : nop) (x y : nat) : py nat :=
  do s <- look x ;
  if same_nop o (s_cls s) then (do _ <- add_node x y ; ret x) else nary o [x; y].
Definition iadd : nat -> nat -> py nat := inplace NAdd.
Definition imul : nat -> nat -> py nat := inplace NMul.
(** [add], [maximum], ...: the decorator [_op], mathematical.py:60-76. *)
Definition several (b : bop) (o : nop) (xs : list nat) : py nat :=
  match xs with
  | [] | [_] => raise
  | [x; y] => binop b x y
  | _ => nary o xs
  end.
(** [sum], [all], [max], ... without an axis. *)
Definition red (o : rop) (x : nat) : py nat :=
  do s <- look x ; do _ <- lift (red_new o None (s_shape s)) ; emit (KRed o) [x] [] true.
(** [sum] with an axis, _model.pyx:1521-1537; [PartialSum.__init__], symbols.pyx:2435-2438. *)
Definition sum_axis (x : nat) (a : Z) : py nat :=
  do s <- look x ;
  if (0 <=? a) && (a <? Z.of_nat (length (s_shape s)))
  then (do sh <- lift (pr_new (s_shape s) [a]) ; emit (KAxis (Z.to_nat a)) [x] sh true)
  else raise.
(** [reshape], _model.pyx:1331-1356; [Reshape.__init__], symbols.pyx:2790-2798. *)
Definition reshape (x : nat) (sh : list Z) : py nat :=
  if existsb (fun d => d <? 0) sh then raise
  else do s <- look x ; do sh <- lift (reshape_new (s_contig s) (s_shape s) sh) ; emit KReshape [x] sh true.
(** [-x], [x ** 2]. *)
Definition unop (o : uop) (x : nat) : py nat := do s <- look x ; emit (KUn o) [x] (s_shape s) true.
(** [where], mathematical.py; [WhereNode], flow.cpp:28-43. *)
Definition where_ (c x y : nat) : py nat :=
  do a <- look c ; do s <- look x ; do t <- look y ;
  do sh <- lift (where_new (s_shape a) (s_shape s) (s_shape t)) ;
  emit KWhere [c; x; y] sh true.
(** [size], _model.pyx:1376-1397: a number unless it is state-dependent. *)
Definition size (x : nat) : py (Z + nat) :=
  do s <- look x ;
  if dynamic (s_shape s) then (do z <- emit KSize [x] [] true ; ret (inr z)) else ret (inl (shape_to_size (s_shape s))).
(** [__pow__], _model.pyx:1231-1249. *)
Definition pow (x : nat) (e : Z) : py nat :=
  if e =? 2 then unop USquare x
  else if 0 <? e then pfor (repeat x (Z.to_nat (e - 1))) imul x
  else raise.

(** [Model.quadratic_model], model.py:356-380; [QuadraticModel.__init__], symbols.pyx:2561-2580, with coordinates:
    [_init_from_coords], 2582-2639.  [logical] is what [x.array_ptr.logical()] says: symbols carry no bounds here. *)
Definition from_coords (logical : bool) (n : nat) (quad : list (Z * Z * num)) (lin : list num) : res qmodel :=
  rbind (qm_new (Z.of_nat n)) (fun q =>
  rbind (rfold (fun q i => rbind (rget lin i) (fun b => add_linear q i b)) q (seq 0 (length lin))) (fun q =>
  rfold (fun q t => let '(u, v, b) := t in
           if logical && (u =? v) then add_linear q (Z.to_nat u) b else add_quadratic q (Z.to_nat u) (Z.to_nat v) b) q quad)).
Definition quadratic_model (logical : bool) (x : nat) (quad : list (Z * Z * num)) (lin : list num) : py nat :=
  do s <- look x ;
  if dynamic (s_shape s) then raise
  else match s_shape s with
  | [n] =>
      if n <? 1 then raise
      else if n <? Z.of_nat (length lin) then raise
      else if (length quad =? 0)%nat then raise
      else if existsb (fun t => (fst (fst t) <? 0) || (snd (fst t) <? 0)) quad then raise
      else if existsb (fun t => (n <=? fst (fst t)) || (n <=? snd (fst t))) quad then raise
      else do q <- lift (from_coords logical (Z.to_nat n) quad lin) ;
           do _ <- lift (qn_new q (s_shape s)) ;
           emit (KQuad logical q) [x] [] true
  | _ => raise
  end.

(** [minimize], _model.pyx:434-463, graph.cpp:169-175. *)
Definition minimize (x : nat) : py unit :=
  do s <- look x ;
  if shape_to_size (s_shape s) =? 1 then fun m => Ok (tt, Pym (p_syms m) (Some x) (p_cons m)) else raise.
(** [add_constraint], _model.pyx:49-93, graph.cpp:177-189. *)
Definition add_constraint (x : nat) : py unit :=
  do s <- look x ;
  if shape_to_size (s_shape s) =? 1 then fun m => Ok (tt, Pym (p_syms m) (p_obj m) (p_cons m ++ [x])) else raise.
