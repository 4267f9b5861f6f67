(** What the symbols of a model stand for: the value of a symbol for given values of the decisions, by
    the functions the node contracts are stated with. *)
From Verif Require Import Base Num StateDataModel NodeSpec BoundsModel NaryModel ReduceModel NarySpec ReduceSpec BinarySpec ElemSpec PermSpec
  ViewSpec AdvSpec PartialSpec QuadModel QuadSpec ProposeSpec PyModel.

(** The classes whose value is decided. *)
Definition decided_cls (c : cls) : bool := match c with KInteger _ _ | KBinary | KList | KSet _ | KListOf _ _ _ _ | KBitOf _ _ _ _ => true | _ => false end.
Definition shapes_of (m : pym) (xs : list nat) : list (list Z) := map (shape_at m) xs.

(** The value of an operation; divisions, remainders and roots are left out. *)
Definition bop_total (o : bop) (x y : num) : num := match bop_func o x y with Some z => z | None => 0%Qc end.
(** The biases that a quadratic model reports ([get_linear], [get_quadratic], C34). *)
Definition reported (q : qmodel) : biases :=
  Biases (fun u => match get_linear q u with Ok b => b | _ => 0%Qc end) (fun u v => match get_quadratic q u v with Ok b => b | _ => 0%Qc end).
Definition meaning (c : cls) (shs : list (list Z)) (ins : list (list num)) : option (list num) :=
  match c, shs with
  | KConst v, _ => constant_fun v ins
  | KBasic ix, [s] => view_fun s ix ins
  | KAdv spec, s :: _ => if dynamic s then None else adv_fun s 0 spec ins
  | KPerm, s :: _ => perm_fun (Z.to_nat (hd 0%Z s)) (length s) ins
  | KUn USqrt, _ => None
  | KUn o, _ => un_fun (uop_func (fun x => x) o) ins
  | KBin BDiv, _ | KBin BMod, _ => None
  | KBin o, [s; t] => bin_fun (bop_total o) s t ins
  | KNary o, _ => nary_fun (nop_func o) (length shs) ins
  | KRed o, _ => red_fun o (identity_of o) ins
  | KWhere, s :: _ => where_fun q2b s ins
  | KSize, _ => size_fun (fun n => zq (Z.of_nat n)) ins
  | KReshape, _ => reshape_fun ins
  | KAxis a, [s] => pr_fun s a 0%Qc ins
  | KQuad _ q, _ => q_fun (qm_n q) (reported q) ins
  | _, _ => None
  end.

(** [x] has the value [v] when the decisions have the values [dv]. *)
Inductive yields (m : pym) (dv : nat -> list num) : nat -> list num -> Prop :=
| y_dec x s : nth_error (p_syms m) x = Some s -> decided_cls (s_cls s) = true -> yields m dv x (dv x)
| y_op x s ins v : nth_error (p_syms m) x = Some s -> decided_cls (s_cls s) = false ->
    Forall2 (yields m dv) (s_pred s) ins -> meaning (s_cls s) (shapes_of m (s_pred s)) ins = Some v -> yields m dv x v.

(** The same by recursion to a depth of [fuel]. *)
Fixpoint value (fuel : nat) (m : pym) (dv : nat -> list num) (x : nat) : option (list num) :=
  match fuel with
  | O => None
  | S f => match nth_error (p_syms m) x with
           | None => None
           | Some s => if decided_cls (s_cls s) then Some (dv x)
                       else match all_some (map (value f m dv) (s_pred s)) with
                            | Some ins => meaning (s_cls s) (shapes_of m (s_pred s)) ins
                            | None => None
                            end
           end
  end.

(** A model's objective has value [v]; its constraints are all satisfied. *)
Definition objective (m : pym) (dv : nat -> list num) (v : num) : Prop := exists x, p_obj m = Some x /\ yields m dv x [v].
(** Every constraint is 0 or 1, and they are all 1 exactly if [P]. *)
Definition feasible_iff (m : pym) (dv : nat -> list num) (P : Prop) : Prop :=
  exists bs, Forall2 (fun c b => yields m dv c [b2q b]) (p_cons m) bs /\ (Forall (fun b => b = true) bs <-> P).

(** The model's decisions, and one of them. *)
Definition decides (m : pym) (x : nat) : bool := match nth_error (p_syms m) x with Some s => decided_cls (s_cls s) | None => false end.
Definition decisions (m : pym) : list nat := filter (decides m) (seq 0 (length (p_syms m))).
Definition decision (m : pym) (x : nat) (c : cls) (sh : list Z) : Prop := exists ps ct, nth_error (p_syms m) x = Some (Sym c ps sh ct).
