(** Running a model built by the front end: its values under every history of proposals are those that its
    symbols stand for. *)
From Coq Require Import Relations Permutation.
From Verif Require Import Base Num SliceModel ShapeModel ShapeSpec StateDataModel NodeSpec BinaryModel BasicModel ViewModel ElemModel NaryModel ReduceModel BoundsModel
  PermModel AdvModel PartialModel QuadModel QuadSpec QuadProofs AdvSpec2 DisjointSpec GraphModel GraphSpec ProposeModel ProposeSpec GroupModel GroupSpec PyModel PySpec GenSpec RunModel.

(** The graph [g] is that of the model [m], sorted; in whatever order it was put together. *)
Definition locked (m : pym) (g : graph) : Prop := (exists ops, history ops = Ok g) /\ gsorted g = true /\ acyclic g /\
  (forall x, In x (gnodes g) <-> x < length (p_syms m)) /\
  (forall x s, nth_error (p_syms m) x = Some s -> oget (gpred g) x = s_pred s /\ is_decision g x = source_cls (s_cls s)).

(** The values a decision may take. *)
Definition allowed (c : cls) (sh : list Z) (v : list num) : Prop :=
  match c with
  | KInteger lo hi => Z.of_nat (length v) = prod sh /\ Forall (whole lo hi) v
  | KBinary => Z.of_nat (length v) = prod sh /\ Forall (whole 0 1) v
  | KList => exists p, Permutation p (seq 0 (Z.to_nat (hd 0%Z sh))) /\ v = numbers p
  | KSet n => exists p, NoDup p /\ Forall (fun i => i < Z.to_nat n) p /\ v = numbers p
  | _ => True
  end.
(** The values that the parts of disjoint lists or bit-sets [x] may take together. *)
Definition shared (m : pym) (dv : nat -> list num) (x : nat) (c : cls) : Prop :=
  match c with
  | KLists n k => exists ls, list_partition (Z.to_nat n) ls /\ length ls = k /\
      forall y i, option_map s_cls (nth_error (p_syms m) y) = Some (KListOf x n k i) -> nth_error ls i = Some (dv y)
  | KBits n k => exists rows, bits_partition (Z.to_nat n) k rows /\
      forall y i, option_map s_cls (nth_error (p_syms m) y) = Some (KBitOf x n k i) -> nth_error rows i = Some (dv y)
  | _ => True
  end.
Definition in_domain (m : pym) (dv : nat -> list num) : Prop :=
  forall x s, nth_error (p_syms m) x = Some s -> (decided_cls (s_cls s) = true -> allowed (s_cls s) (s_shape s) (dv x)) /\ shared m dv x (s_cls s).
(** All symbols but those that parts come from are arrays. *)
Definition array (m : pym) (x : nat) : Prop := exists s, nth_error (p_syms m) x = Some s /\ main_cls (s_cls s) = false.
(** Every array has a value whenever the decisions have values they may take. *)
Definition total (m : pym) : Prop := forall dv, in_domain m dv -> forall x, array m x -> exists v, yields m dv x v.

Section Run.
Variables strict dbg : bool.
Variable m : pym.
Variable g : graph.
Notation N := (nodes strict dbg m).

(** Every array has the value it stands for when the decisions have the values [dv], and nothing is pending. *)
Definition shown (st : states N) (dv : nat -> list num) : Prop :=
  forall x, array m x -> exists v, yields m dv x v /\ pin_of N g st x = Some (still v).

(** Some decisions have been given a state, all other nodes have none. *)
Definition fresh (st : states N) : Prop := forall x s, nth_error (p_syms m) x = Some s ->
  if source_cls (s_cls s) then match st x with Some t => r_start (node_at strict dbg m x) t | None => True end else st x = None.
(** Moves of the decisions [sources]. *)
Definition changes (sources : list nat) (st st1 : states N) : Prop := NoDup sources /\ incl sources (gdec g) /\
  forall x, (In x sources -> exists s s', st x = Some s /\ st1 x = Some s' /\ clos_refl_trans _ (r_move (node_at strict dbg m x)) s s') /\
            (~ In x sources -> st1 x = st x).
Notation clear := (repeat false (length (gnodes g))).
(** The states between proposals. *)
Inductive running : states N -> Prop :=
| rn_init st0 st : fresh st0 -> initialize_all N g st0 = Ok st -> running st
| rn_propose st sources st1 accept marks st2 : running st -> changes sources st st1 ->
    propose dbg N g clear sources accept st1 = Ok (marks, st2) -> running st2.

(** Initialisation succeeds; between proposals every array has its value for values that the decisions
    may take; a proposal succeeds, the acceptance function sees every array at its value for the
    new values of the decisions, and if it rejects them every array is back at its value before. *)
Definition faithful : Prop :=
  (forall st0, fresh st0 -> exists st, initialize_all N g st0 = Ok st) /\
  (forall st, running st -> exists dv, in_domain m dv /\ shown st dv) /\
  (forall st dv sources st1 accept, running st -> shown st dv -> changes sources st st1 ->
     exists dv' mid st2, in_domain m dv' /\ (forall x, In x (decisions m) -> exists p, pin_of N g st1 x = Some p /\ pview p = dv' x) /\
       (exists ns, descendants g clear sources = Some (clear, ns) /\ propagate_all N g st1 ns = Ok mid) /\
       propose dbg N g clear sources accept st1 = Ok (clear, st2) /\
       (forall x, array m x -> exists v p, yields m dv' x v /\ pin_of N g mid x = Some p /\ pview p = v) /\
       shown st2 (if accept mid then dv' else dv)).
End Run.

(** A quadratic model that was filled by operations on its variables (C34). *)
Definition filled (q : qmodel) : Prop := exists q0 ops, qm_new (Z.of_nat (qm_n q)) = Ok q0 /\ Forall (qop_in (qm_n q)) ops /\ BinaryModel.rfold run_qop q0 ops = Ok q.

(** Sets, disjoint lists, and views of these. *)
Definition index_cls (c : cls) : bool := match c with KSet _ | KListOf _ _ _ _ => true | _ => false end.
Definition index_at (m : pym) (y : nat) : Prop := exists s, nth_error (p_syms m) y = Some s /\ index_cls (s_cls s) = true.
Definition indices (m : pym) (z : nat) : Prop := index_at m z \/ exists ix y sh ct, nth_error (p_syms m) z = Some (Sym (KBasic ix) [y] sh ct) /\ index_at m y /\ shape_at m y = [-1]%Z.
(** Symbols whose nodes have contracts that need nothing else of their predecessors.  (The front end has
    made the checks of the constructors; further: views are contiguous parts of arrays of fixed size, not empty if
    assertions are compiled in, or ranges of arrays of one axis that change size; indexed arrays have a fixed size, and index arrays too unless
    they are sets or disjoint lists or views of these; only
    constant matrices are reordered, by a list or by integers within range.) *)
Definition sound (strict dbg : bool) (m : pym) (s : sym) : Prop :=
  Forall (fun y => y < length (p_syms m)) (s_pred s) /\ wf_shape (s_shape s) /\
  match s_cls s, s_pred s with
  | KConst v, [] => fits (s_shape s) v
  | KInteger lo hi, [] => dynamic (s_shape s) = false /\ (0 <= prod (s_shape s))%Z /\ (lo <= hi)%Z /\ (-2000000000 <= lo)%Z /\ (hi <= 2000000000)%Z
  | KBinary, [] => dynamic (s_shape s) = false /\ (0 <= prod (s_shape s))%Z
  | KList, [] => exists n, s_shape s = [Z.of_nat n]
  | KSet n, [] => (0 <= n)%Z /\ s_shape s = [if n =? 0 then 0 else -1]%Z
  | KLists n k, [] => (0 <= n)%Z /\ 1 <= k /\ s_shape s = [-1]%Z
  | KBits n k, [] => (0 <= n)%Z /\ 1 <= k /\ s_shape s = [-1]%Z
  | KListOf main n k i, [y] => y = main /\ option_map s_cls (nth_error (p_syms m) y) = Some (KLists n k) /\ i < k /\ s_shape s = [-1]%Z
  | KBitOf main n k i, [y] => y = main /\ option_map s_cls (nth_error (p_syms m) y) = Some (KBits n k) /\ i < k /\ (0 <= n)%Z /\ s_shape s = [n]%Z
  | KBasic ix, [y] => let ps := shape_at m y in contig_at m y = true /\
      (exists p, basic_new (shape_to_size ps) ps (shape_to_strides ps) true ix = Ok (p, true) /\ p_shape p = s_shape s) /\
      (dynamic ps = false /\ Forall (fun d => 0 <= d <= SMAX)%Z ps /\ (dbg = true -> (0 < prod (s_shape s))%Z) \/
       ps = [-1]%Z /\ exists a, ix = [ISlice a] /\ (sstart a <= SMAX)%Z)
  | KAdv spec, y :: ys => let ps := shape_at m y in dynamic ps = false /\
      exists A, adv_new dbg ps (Some 0%Z) (index_list spec (shapes_of m ys)) = Ok A /\ ad_oshape A = s_shape s /\ length (filter (fun b => b) spec) = length ys /\ Forall (fun z => shape_at m z = ad_ishape A) ys /\
        adv_supported (konst_at m y) ps spec (ad_ishape A) /\ (strict = true -> dynamic (ad_ishape A) = false) /\
        Forall (fun z => dynamic (shape_at m z) = false \/ indices m z) ys
  | KPerm, [y; z] => exists n, 1 <= n /\ (8 * Z.of_nat (n * n) < 2147483648)%Z /\ s_shape s = [Z.of_nat n; Z.of_nat n] /\
      shape_at m y = [Z.of_nat n; Z.of_nat n] /\ shape_at m z = [Z.of_nat n] /\ konst_at m y = true /\
      match option_map s_cls (nth_error (p_syms m) z) with Some KList => True | Some (KInteger lo hi) => (0 <= lo)%Z /\ (hi < Z.of_nat n)%Z | _ => False end
  | KUn o, [y] => o <> USqrt /\ s_shape s = shape_at m y
  | KBin o, [y; z] => o <> BDiv /\ o <> BMod /\ BinaryModel.bin_new (shape_at m y) (shape_at m z) = Ok (s_shape s)
  | KNary o, ys => nary_new (shapes_of m ys) = Ok (s_shape s)
  | KRed o, [y] => s_shape s = [] /\ exists i, red_new o None (shape_at m y) = Ok i
  | KWhere, [c; y; z] => where_new (shape_at m c) (shape_at m y) (shape_at m z) = Ok (s_shape s)
  | KSize, [y] => s_shape s = []
  | KReshape, [y] => contig_at m y = true /\ reshape_new true (shape_at m y) (s_shape s) = Ok (s_shape s)
  | KAxis a, [y] => let ps := shape_at m y in contig_at m y = true /\ pr_new ps [Z.of_nat a] = Ok (s_shape s) /\ (dbg = true -> (Z.of_nat a < prod ps)%Z)
  | KQuad _ q, [y] => s_shape s = [] /\ shape_at m y = [Z.of_nat (qm_n q)] /\ filled q
  | _, _ => False
  end.
Definition all_sound (strict dbg : bool) (m : pym) : Prop := Forall (sound strict dbg m) (p_syms m).
