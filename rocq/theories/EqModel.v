(** Model of [Symbol.equals] and [maybe_equals] (dwave/optimization/_model.pyx, symbols.pyx), on the symbols of
    [PyModel].  [same] says that the two symbols belong to one model, and nothing has expired: two symbols share
    memory if they are then the same node.  Simplification: an array of constants holds no NaN. *)
From Verif Require Import Base Num SliceModel BinaryModel StateDataModel BoundsModel NaryModel ReduceModel ShapeModel NodeSpec PyModel.

(** [type(symbol)]: what [symbol_from_ptr] makes of a node, symbols.pyx:179-195.  The registered classes are
    all direct subclasses of [ArraySymbol], or of [Symbol] (DisjointLists and DisjointBitSets), so that one is
    an instance of another's type only if the types are the same. *)
Inductive ptype :=
| TConst | TInteger | TList | TSet | TDisjointLists | TDisjointList | TDisjointBitSets | TDisjointBitSet
| TBasic | TAdvanced | TPermutation | TUn (o : uop) | TBin (o : bop) | TNary (o : nop) | TRed (o : rop) | TWhere | TSize
| TBinary | TReshape | TPartialSum | TQuadratic.
Definition type_of (c : cls) : ptype :=
  match c with
  | KConst _ => TConst | KInteger _ _ => TInteger | KList => TList | KSet _ => TSet
  | KLists _ _ => TDisjointLists | KListOf _ _ _ _ => TDisjointList | KBits _ _ => TDisjointBitSets | KBitOf _ _ _ _ => TDisjointBitSet
  | KBasic _ => TBasic | KAdv _ => TAdvanced | KPerm => TPermutation
  | KUn o => TUn o | KBin o => TBin o | KNary o => TNary o | KRed o => TRed o | KWhere => TWhere | KSize => TSize
  | KBinary => TBinary | KReshape => TReshape | KAxis _ => TPartialSum | KQuad _ _ => TQuadratic
  end.
Definition ptype_eq_dec (a b : ptype) : {a = b} + {a <> b}.
Proof. repeat decide equality. Defined.
Definition ptype_eqb (a b : ptype) : bool := if ptype_eq_dec a b then true else false.
(** [isinstance(symbol, ArraySymbol)]. *)
Definition is_array_symbol (c : cls) : bool := match c with KLists _ _ | KBits _ _ => false | _ => true end.

Inductive verdict := Not | Maybe | Definitely.
Definition node (m : pym) (x : nat) : res sym := match nth_error (p_syms m) x with Some s => Ok s | None => UB end.
(** The loop over pairs of predecessors, _model.pyx:943-946. *)
Fixpoint types_match (m m' : pym) (ps qs : list nat) : res bool :=
  match ps, qs with
  | p :: ps, q :: qs =>
      rbind (node m p) (fun s => rbind (node m' q) (fun t =>
      if ptype_eqb (type_of (s_cls s)) (type_of (s_cls t)) then types_match m m' ps qs else Ok false))
  | _, _ => Ok true
  end.
Section Eq.
Variables (same : bool) (m m' : pym).
(** [Symbol.maybe_equals], _model.pyx:885-948. *)
Definition symbol_maybe_equals (x y : nat) (s t : sym) : res verdict :=
  if negb (ptype_eqb (type_of (s_cls s)) (type_of (s_cls t))) then Ok Not
  else if same && (x =? y)%nat then Ok Definitely
  else if negb (length (s_pred s) =? length (s_pred t))%nat then Ok Not
  else rbind (types_match m m' (s_pred s) (s_pred t)) (fun b => Ok (if b then Maybe else Not)).
(** [ArraySymbol.maybe_equals], _model.pyx:1291-1309. *)
Definition array_maybe_equals (x y : nat) (s t : sym) : res verdict :=
  rbind (symbol_maybe_equals x y s t) (fun v =>
  match v with
  | Maybe => if negb (is_array_symbol (s_cls t)) then Ok Not else if negb (zlist_eqb (s_shape s) (s_shape t)) then Ok Not else Ok Maybe
  | _ => Ok v
  end).
(** [Constant.maybe_equals], symbols.pyx:1015-1026. *)
Fixpoint values_eqb (v w : list num) : bool :=
  match v, w with [], [] => true | a :: v, b :: w => qeqb a b && values_eqb v w | _, _ => false end.
Definition constant_maybe_equals (x y : nat) (s t : sym) (v : list num) : res verdict :=
  rbind (array_maybe_equals x y s t) (fun r =>
  match r, s_cls t with
  | Maybe, KConst w => Ok (if values_eqb v w then Definitely else Not)
  | _, _ => Ok r
  end).
Definition maybe_equals (x y : nat) : res verdict :=
  rbind (node m x) (fun s => rbind (node m' y) (fun t =>
  match s_cls s with
  | KConst v => constant_maybe_equals x y s t v
  | KLists _ _ | KBits _ _ => symbol_maybe_equals x y s t
  | _ => array_maybe_equals x y s t
  end)).

(** [all(f(p, q) for p, q in zip(ps, qs))], which stops at the first False; with the number of calls. *)
Fixpoint all_zip (f : nat -> nat -> res (bool * nat)) (ps qs : list nat) : res (bool * nat) :=
  match ps, qs with
  | p :: ps, q :: qs =>
      rbind (f p q) (fun r => if fst r then rbind (all_zip f ps qs) (fun r' => Ok (fst r', (snd r + snd r')%nat)) else Ok r)
  | _, _ => Ok (true, O)
  end.
(** [Symbol.equals], _model.pyx:683-702, with the number of calls of [equals] it makes, itself included.
    [limit] is how deep Python lets functions call each other; beyond that it raises RecursionError. *)
Fixpoint equals (limit : nat) (x y : nat) : res (bool * nat) :=
  match limit with
  | O => Throw
  | S l =>
      rbind (maybe_equals x y) (fun v =>
      match v with
      | Not => Ok (false, 1%nat)
      | Definitely => Ok (true, 1%nat)
      | Maybe =>
          rbind (node m x) (fun s => rbind (node m' y) (fun t =>
          rbind (all_zip (equals l) (s_pred s) (s_pred t)) (fun r => Ok (fst r, S (snd r)))))
      end)
  end.
End Eq.
