(** The C++ node behind each symbol of the front end, as the classes of symbols.pyx construct it, and the
    graph the nodes form.  The node of a symbol is the model of its class (NodeLib, BinaryModel, ElemModel,
    NaryModel, ReduceModel, PermModel, PartialModel, QuadModel, AdvModel, ViewModel, NumbersModel, CollectionsModel, GroupModel) with the
    parameters the front end passed.  Divisions, remainders and roots are left out: such symbols get a node that
    does nothing but fail. *)
From Verif Require Import Base Num SliceModel ShapeModel StateDataModel NodeSpec NodeLib BinaryModel BasicModel ViewModel ElemModel NaryModel
  ReduceModel BoundsModel PermModel AdvModel PartialModel QuadModel NumbersModel CollectionsModel GraphModel ProposeModel GroupModel PyModel.
From Verif Require Import ShapeSpec BinarySpec ElemSpec ReduceSpec ProposeSpec GroupSpec PySpec.

(** The indices of an [AdvancedIndexingNode], symbols.pyx:439-460, as given to its constructor. *)
Fixpoint index_list (spec : list bool) (shs : list (list Z)) : list aindex :=
  match spec, shs with
  | true :: t, s :: r => AArr s 0 true 0%Qc (zq (-1)) :: index_list t r
  | false :: t, _ => ASlice true :: index_list t shs
  | _, _ => []
  end.
(** Whether a symbol is a constant; whether it is contiguous. *)
Definition konst_at (m : pym) (x : nat) : bool := match nth_error (p_syms m) x with Some (Sym (KConst _) _ _ _) => true | _ => false end.
Definition contig_at (m : pym) (x : nat) : bool := match nth_error (p_syms m) x with Some s => s_contig s | None => false end.

(** A node, and of a decision the states it may start from and the moves it offers. *)
Record rnode := RNode { r_node : vnode num; r_start : vn_ST r_node -> Prop; r_move : vn_ST r_node -> vn_ST r_node -> Prop }.
Definition plain (N : vnode num) : rnode := RNode N (fun _ => False) (fun _ _ => False).
Definition broken : rnode :=
  plain {| vn_shape := []; vn_pre := []; vn_ST := unit; vn_init := fun _ => UB; vn_out := fun _ _ => None; vn_prop := fun _ _ => UB;
           vn_commit := fun _ _ => UB; vn_revert := fun _ _ => UB |}.
Definition made {A} (r : res A) (k : A -> rnode) : rnode := match r with Ok a => k a | _ => broken end.

Section Run.
(** As in AdvModel: whether undefined operations with unused results count; whether assertions are compiled in. *)
Variables strict dbg : bool.
Variable m : pym.

Definition node_of (s : sym) : rnode :=
  match s_cls s, s_pred s, shapes_of m (s_pred s) with
  | KConst v, [], _ => plain (constant_vnode (s_shape s) v)
  | KInteger lo hi, [], _ =>
      let n := {| isize := Z.to_nat (prod (s_shape s)); ilo := lo; ihi := hi; ibinary := false |} in
      RNode (number_vnode (s_shape s) n) (number_start n) (number_move n)
  | KBinary, [], _ => let n := binary_node (Z.to_nat (prod (s_shape s))) in RNode (number_vnode (s_shape s) n) (number_start n) (number_move n)
  | KList, [], _ =>
      let k := Z.to_nat (hd 0%Z (s_shape s)) in let n := CNode k k k in
      RNode (collection_vnode n (Ok (list_init_default n))) (collection_start n) (collection_move n)
  | KSet z, [], _ =>
      let k := Z.to_nat z in let n := CNode k 0 k in
      RNode (collection_vnode n (Ok (set_init_default n))) (collection_start n) (collection_move n)
  | KLists z k, [], _ => let n := Z.to_nat z in RNode (lists_vnode dbg n k) (lists_start n k) lists_move
  | KBits z k, [], _ => let n := Z.to_nat z in RNode (bits_vnode n k) (bits_start n k) (bits_move n)
  | KListOf _ _ _ i, [_], _ => plain (part_vnode (s_shape s) i)
  | KBitOf _ _ _ i, [_], _ => plain (part_vnode (s_shape s) i)
  | KBasic ix, [x], [ps] =>
      made (basic_new (shape_to_size ps) ps (shape_to_strides ps) (contig_at m x) ix) (fun r => plain (view_node qeqb dbg ps (fst r) (snd r)))
  | KAdv spec, x :: _, ps :: ixs =>
      made (adv_new dbg ps (Some 0%Z) (index_list spec ixs)) (fun A => plain (ProposeModel.lift (adv_node strict dbg A (konst_at m x))))
  | KPerm, _, [ps; _] => plain (ProposeModel.lift (perm_node (Z.to_nat (hd 0%Z ps)) (length ps)))
  | KUn o, _, [ps] => let f := uop_func (fun x => x) o in plain (ProposeModel.lift (array_node 0%Qc ps [ps] (un_init f) (un_prop qeqb f)))
  | KBin o, _, [ls; rs] =>
      made (BinaryModel.bin_new ls rs) (fun s => plain (ProposeModel.lift (array_node 0%Qc s [ls; rs] (bin_init (bop_total o) ls rs) (bin_prop qeqb (bop_total o) ls rs))))
  | KNary o, _, shs =>
      made (nary_new shs) (fun s => plain (ProposeModel.lift (array_node 0%Qc s shs (nary_init (nop_func o)) (nary_prop qeqb (nop_func o) (nop_inv o)))))
  | KRed o, _, [ps] => made (red_new o None ps) (fun i => plain (ProposeModel.lift (red_node o i ps)))
  | KWhere, _, [cs; xs; ys] =>
      made (where_new cs xs ys) (fun s => plain (ProposeModel.lift (array_node_gen 0%Qc (where_out xs) s [cs; xs; ys] (where_init q2b cs) (where_prop qeqb q2b cs))))
  | KSize, _, [ps] =>
      let f := fun n => zq (Z.of_nat n) in plain (ProposeModel.lift (scalar_node (veqb := qeqb) [ps] (size_init f) (size_prop f)))
  | KReshape, _, [ps] => plain (ProposeModel.lift (reshape_node ps (s_shape s)))
  | KAxis a, _, [ps] =>
      let mem := fun (l : list num) k => nth_error l (Z.to_nat k) in
      plain (ProposeModel.lift (array_node 0%Qc (s_shape s) [ps] (pr_init dbg ps (shape_to_strides ps) a 0%Qc mem) (pr_prop dbg ps a)))
  | KQuad _ q, _, _ => plain (ProposeModel.lift (qn_node q))
  | _, _, _ => broken
  end.
Definition node_at (x : nat) : rnode := match nth_error (p_syms m) x with Some s => node_of s | None => broken end.
Definition nodes (x : nat) : vnode num := r_node (node_at x).
End Run.

(** The classes that are [DecisionNode]s; of these, those that are no arrays.  (The parts of disjoint collections are decided
    too, but by these.) *)
Definition source_cls (c : cls) : bool := match c with KInteger _ _ | KBinary | KList | KSet _ | KLists _ _ | KBits _ _ => true | _ => false end.
Definition main_cls (c : cls) : bool := match c with KLists _ _ | KBits _ _ => true | _ => false end.
(** The predecessors that a node has when it is made, and those that were added to it later ([x += y], [NaryOpNode::add_node]):
    from the first on that is not older than the node itself. *)
Fixpoint early (x : nat) (ps : list nat) : list nat := match ps with p :: t => if p <? x then p :: early x t else [] | [] => [] end.
Fixpoint late (x : nat) (ps : list nat) : list nat := match ps with p :: t => if p <? x then late x t else ps | [] => [] end.
Fixpoint made_from (x : nat) (l : list sym) : list gop :=
  match l with [] => [] | s :: t => (if source_cls (s_cls s) then GDecision else GAdd true (early x (s_pred s))) :: made_from (S x) t end.
Fixpoint added_from (x : nat) (l : list sym) : list gop :=
  match l with [] => [] | s :: t => map (GAddEdge x) (late x (s_pred s)) ++ added_from (S x) t end.
(** [Model.lock], _model.pyx:423-431: the graph of the model, as made by [emplace_node] in order of creation,
    then sorted.  (Objective and constraints, which play no part in sorting and running, are left out.  What was added to
    nodes is here added when all nodes are made; the front end does so in between.) *)
Definition build (m : pym) : list gop := made_from 0 (p_syms m) ++ added_from 0 (p_syms m) ++ [GSort].
