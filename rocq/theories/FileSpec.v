(** When a model read from a file stands for the model that was written. *)
From Verif Require Import Base Num SliceModel ShapeSpec SliceSpec StateDataModel BasicModel BasicSpec BoundsModel NodeSpec GraphModel GraphSpec PyModel PySpec FileModel.
From Coq Require Import Permutation.
Local Open Scope Z_scope.

(** Symbol [x] is the [i]-th of the order [ord]. *)
Definition at_ (ord : list nat) (x i : nat) : Prop := nth_error ord i = Some x.
(** What a part of a disjoint decision is part of, and its number. *)
Definition part_of (c : cls) : option (nat * nat) :=
  match c with KListOf main _ _ i | KBitOf main _ _ i => Some (main, i) | _ => None end.

(** An order of all nodes with the decisions first, operands before what is made of them, and the parts of one
    decision in the order of their numbers. *)
Record legal (m : pym) (ord : list nat) : Prop := {
  lg_all : Permutation ord (seq 0 (length (p_syms m)));
  lg_pred : forall x s p, nth_error (p_syms m) x = Some s -> In p (s_pred s) -> before ord p x;
  lg_dec : forall x s y t, nth_error (p_syms m) x = Some s -> nth_error (p_syms m) y = Some t ->
    decision_cls (s_cls s) = true -> decision_cls (s_cls t) = false -> before ord x y;
  lg_part : forall x s y t main i j, nth_error (p_syms m) x = Some s -> nth_error (p_syms m) y = Some t ->
    part_of (s_cls s) = Some (main, i) -> part_of (s_cls t) = Some (main, j) -> (i < j)%nat -> before ord x y }.

(** The C++ graph [g] behind the symbols of [m]. *)
Record graph_of (m : pym) (g : graph) : Prop := {
  go_nodes : Permutation (gnodes g) (seq 0 (length (p_syms m)));
  go_pred : forall x s, nth_error (p_syms m) x = Some s -> oget (gpred g) x = s_pred s;
  go_dec : forall x s, nth_error (p_syms m) x = Some s -> (In x (gdec g) <-> decision_cls (s_cls s) = true) }.

(** The views whose indices can be inferred (C45): of a non-empty array with fewer than 2^31 elements, or of one whose number
    of rows changes, every slice selecting something and starting inside its axis. *)
Definition inferable (sh : list Z) (ix : list sidx) : Prop :=
  (dynamic sh = true -> hd 0 sh = -1) /\
  let (fixed, jx) := if dynamic sh then (tl sh, tl ix) else (sh, ix) in
  Forall (fun d => 1 <= d) fixed /\ prod fixed < 2147483648 /\ starts_inside fixed jx /\ Forall (fun d => 1 <= d) (sel_shape fixed jx).
Definition views_inferable (m : pym) : Prop :=
  forall x s ix a t, nth_error (p_syms m) x = Some s -> s_cls s = KBasic ix -> s_pred s = [a] -> nth_error (p_syms m) a = Some t -> inferable (s_shape t) ix.

(** The same operation: views of an array of shape [sh] may be written differently if they select the same, whatever
    the number of rows, and the decision that a part belongs to has its new number. *)
Definition same_op (ord : list nat) (sh : list Z) (c d : cls) : Prop :=
  match c, d with
  | KBasic ix, KBasic jx => forall n, selected (if dynamic sh then n :: tl sh else sh) ix = selected (if dynamic sh then n :: tl sh else sh) jx
  | KListOf main n k i, KListOf main' n' k' i' | KBitOf main n k i, KBitOf main' n' k' i' => at_ ord main main' /\ n = n' /\ k = k' /\ i = i'
  | _, _ => c = d
  end.
(** [m'] consists of the first [stop] symbols of [m] in the order [ord], numbered anew. *)
Record copy (m : pym) (ord : list nat) (stop : nat) (m' : pym) : Prop := {
  cp_len : length (p_syms m') = stop;
  cp_sym : forall x i, at_ ord x i -> (i < stop)%nat -> exists s t, nth_error (p_syms m) x = Some s /\ nth_error (p_syms m') i = Some t /\
    same_op ord (shape_at m (hd 0%nat (s_pred s))) (s_cls s) (s_cls t) /\ Forall2 (at_ ord) (s_pred s) (s_pred t) /\
    s_shape s = s_shape t /\ s_contig s = s_contig t;
  cp_obj : match p_obj m' with
           | Some i => exists x, p_obj m = Some x /\ at_ ord x i
           | None => forall x i, p_obj m = Some x -> at_ ord x i -> (stop <= i)%nat
           end;
  cp_cons : Forall2 (at_ ord) (filter (fun x => existsb (Nat.eqb x) (firstn stop ord)) (p_cons m)) (p_cons m') }.
