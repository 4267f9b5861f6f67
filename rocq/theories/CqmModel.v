(** Model of [_from_constrained_quadratic_model] (dwave/optimization/generators.py:92-149), which makes a model of a
    [dimod.ConstrainedQuadraticModel]. *)
From Verif Require Import Base Num SliceModel NaryModel ReduceModel BoundsModel PyModel GenModel.
Local Open Scope Z_scope.

(** What the generator reads of a [dimod] quadratic model: its variables as positions in [cqm.variables]; their linear biases, in
    the same order; its interactions with the positions of the two variables among its own; the offset. *)
Record dqm := Dqm { d_vars : list nat; d_lin : list num; d_quad : list (nat * nat * num); d_off : num }.
Inductive sense := SEq | SLe | SGe.
(** Of the whole: whether each variable is binary; the objective; the constraints, each a left side, a sense and a right side. *)
Record cqm := Cqm { c_binary : list bool; c_obj : dqm; c_cons : list (dqm * sense * num) }.

(** The inner [quadratic_model], 106-131.  [qm.is_linear()] is that there is no interaction.  The elements of [x] are 0 and 1, and so are
    those of [x[indices]]: [QuadraticModel] finds it [logical]. *)
Definition cqm_part (x : nat) (q : dqm) : py nat :=
  do indices <- constant [zlen (d_vars q)] (map (fun i => zq (Z.of_nat i)) (d_vars q)) ;
  do linear <- constant [zlen (d_lin q)] (d_lin q) ;
  do out <- match d_quad q with
            | [] => do y <- getitem x [PArr indices] ; do p <- binop BMul linear y ; red RAdd p
            | quad => do y <- getitem x [PArr indices] ;
                      quadratic_model true y (map (fun t => (Z.of_nat (fst (fst t)), Z.of_nat (snd (fst t)), snd t)) quad) (d_lin q)
            end ;
  if qeqb (d_off q) 0%Qc then ret out else do c <- constant [] [d_off q] ; binop BPlus out c.
(** The loop over the constraints, 136-147. *)
Definition cqm_constraint (x : nat) (k : dqm * sense * num) : py unit :=
  let '(q, s, b) := k in
  do lhs <- cqm_part x q ;
  do rhs <- constant [] [b] ;
  do c <- match s with SEq => binop BEq lhs rhs | SLe => binop BLe lhs rhs | SGe => binop BLe rhs lhs end ;
  add_constraint c.
(** The generator; for reference it returns its decision symbol, if there is one. *)
Definition from_cqm (c : cqm) : py (option nat) :=
  do _ <- unless (existsb negb (c_binary c)) ;
  if (length (c_binary c) =? 0)%nat then ret None
  else
    do x <- binary [zlen (c_binary c)] ;
    do obj <- cqm_part x (c_obj c) ;
    do _ <- minimize obj ;
    do _ <- pfor (c_cons c) (fun _ k => cqm_constraint x k) tt ;
    ret (Some x).
