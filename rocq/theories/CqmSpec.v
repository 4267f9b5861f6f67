(** Quadratic models of binary variables, independently of the symbols that encode them. *)
From Verif Require Import Base Num NarySpec CqmModel.
Local Open Scope Qc_scope.

(** The value for given values of all variables. *)
Definition qm_value (q : dqm) (x : list num) : num :=
  let at_ i := nth (nth i (d_vars q) O) x 0 in
  d_off q + qsum_of (map (fun i => nth i (d_lin q) 0 * at_ i) (seq 0 (length (d_vars q)))) +
  qsum_of (map (fun t => snd t * at_ (fst (fst t)) * at_ (snd (fst t))) (d_quad q)).
Definition compares (s : sense) (a b : num) : Prop := match s with SEq => a = b | SLe => a <= b | SGe => b <= a end.
Definition met (x : list num) (k : dqm * sense * num) : Prop := compares (snd (fst k)) (qm_value (fst (fst k)) x) (snd k).
(** A quadratic model over some of [n] variables. *)
Definition proper (n : nat) (q : dqm) : Prop := (NoDup (d_vars q) /\ Forall (fun v => v < n) (d_vars q) /\ length (d_lin q) = length (d_vars q) /\
  Forall (fun t => fst (fst t) < length (d_vars q) /\ snd (fst t) < length (d_vars q)) (d_quad q))%nat.
Definition proper_cqm (c : cqm) : Prop := Forall (fun b => b = true) (c_binary c) /\ proper (length (c_binary c)) (c_obj c) /\
  Forall (fun k => proper (length (c_binary c)) (fst (fst k))) (c_cons c) /\ (Z.of_nat (length (c_binary c)) < 2147483648)%Z.
Definition bit (q : num) : Prop := q = 0 \/ q = 1.
