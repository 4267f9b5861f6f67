(** Which elements the arrays of a model may have: enough to know that every array has a value. *)
From Verif Require Import Base Num SliceModel ShapeModel StateDataModel NodeSpec BinaryModel ElemModel NaryModel ReduceModel BoundsModel
  PermModel AdvModel AdvSpec ProposeSpec GenSpec PyModel PySpec RunModel RunSpec.

(** Indices of an axis of size [d]. *)
Definition index_of (d : Z) (q : num) : Prop := exists i, (Z.of_nat i < d)%Z /\ q = zq (Z.of_nat i).
Definition only (P Q : num -> Prop) : Prop := forall q, P q -> Q q.
(** Sets and disjoint lists of fewer than 2^31 elements. *)
Definition short (m : pym) (y : nat) : Prop := exists s, nth_error (p_syms m) y = Some s /\ match s_cls s with KSet n | KListOf _ n _ _ => (n < 2147483648)%Z | _ => False end.
(** Views of the same array that always have as many elements. *)
Definition same_size (m : pym) (z z' : nat) : Prop := exists w ix sh ct ix' sh' ct',
  nth_error (p_syms m) z = Some (Sym (KBasic ix) [w] sh ct) /\ nth_error (p_syms m) z' = Some (Sym (KBasic ix') [w] sh' ct') /\ array m w /\
  forall a v v', meaning (KBasic ix) [shape_at m w] [a] = Some v -> meaning (KBasic ix') [shape_at m w] [a] = Some v' -> length v = length v'.
(** Views that never have more than one element. *)
Definition brief (m : pym) (y : nat) : Prop := exists w ix sh ct, nth_error (p_syms m) y = Some (Sym (KBasic ix) [w] sh ct) /\ w < length (p_syms m) /\
  forall a v, meaning (KBasic ix) [shape_at m w] [a] = Some v -> length v <= 1.
(** If what the symbols before [x] have as elements satisfies [B], then what [x] has does; where they are used as indices they
    are indices, and where arrays are combined their sizes agree. *)
Definition carries (m : pym) (B : nat -> num -> Prop) (x : nat) (s : sym) : Prop :=
  (decided_cls (s_cls s) = false -> Forall (array m) (s_pred s)) /\
  match s_cls s, s_pred s with
  | KConst v, _ => Forall (B x) v
  | KInteger lo hi, _ => only (whole lo hi) (B x)
  | KBinary, _ => only (whole 0 1) (B x)
  | KList, _ => only (index_of (hd 0%Z (s_shape s))) (B x)
  | KSet n, _ | KListOf _ n _ _, _ => only (index_of n) (B x)
  | KBitOf _ _ _ _, _ => B x 0%Qc /\ B x 1%Qc
  | KBasic _, [y] => only (B y) (B x) /\ (dynamic (shape_at m y) = false \/ short m y)
  | KAdv spec, y :: zs => only (B y) (B x) /\ Forall2 (fun d z => only (B z) (index_of d)) (pick true spec (shape_at m y)) zs /\
      (length zs = 1 \/ Forall (fun z => dynamic (shape_at m z) = false) zs \/ Forall (same_size m (hd 0 zs)) (tl zs))
  | KPerm, [y; z] => only (B y) (B x) /\ only (B z) (index_of (hd 0%Z (shape_at m y)))
  | KUn o, [y] => forall p, B y p -> B x (uop_func (fun x => x) o p)
  | KBin o, [y; z] => (forall p q, B y p -> B z q -> B x (bop_total o p q)) /\
      (dynamic (shape_at m y) = dynamic (shape_at m z) \/ length (shape_at m y) <> length (shape_at m z))
  | KNary o, ys => (forall q, B x q) \/ (Forall (fun y => only (B y) (B x)) ys /\ forall p q, B x p -> B x q -> B x (nop_func o p q))
  | KRed o, ys => (forall q, B x q) \/ (o = RAdd /\ B x 0%Qc /\ Forall (fun y => brief m y /\ only (B y) (B x)) ys)
  | KWhere, [_; y; z] => only (B y) (B x) /\ only (B z) (B x)
  | KSize, _ => forall n, B x (zq (Z.of_nat n))
  | KReshape, [y] => only (B y) (B x)
  | KAxis _, _ | KQuad _ _, _ => forall q, B x q
  | _, _ => True
  end.
(** No symbol is made of itself, directly or by way of others. *)
Definition ranked (m : pym) (rank : nat -> nat) : Prop := forall x s, nth_error (p_syms m) x = Some s ->
  Forall (fun y => y < length (p_syms m) /\ rank y < rank x) (s_pred s) /\ (source_cls (s_cls s) = true -> s_pred s = []).
(** There are such assignments of elements, and of ranks. *)
Definition typed (m : pym) : Prop := exists B, forall x s, nth_error (p_syms m) x = Some s -> carries m B x s.
Definition grounded (m : pym) : Prop := exists rank, ranked m rank.
