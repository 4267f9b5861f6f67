(** Quadratic polynomials with a symmetric table of biases, independently of the code. *)
From Verif Require Import Base Num NodeSpec.
Local Open Scope Qc_scope.

Fixpoint sumn (n : nat) (f : nat -> Qc) : Qc := match n with O => 0 | S k => sumn k f + f k end.

Record biases := Biases { b_lin : nat -> Qc; b_quad : nat -> nat -> Qc }.
Definition no_biases : biases := Biases (fun _ => 0) (fun _ _ => 0).

(** Building operations; [quad u v] and [quad v u] are the same bias. *)
Inductive qop :=
| SetLin (v : nat) (b : Qc) | AddLin (v : nat) (b : Qc)
| SetQuad (u v : nat) (b : Qc) | AddQuad (u v : nat) (b : Qc)
| AddLins (l : list Qc) | AddSquares (l : list Qc) | AddQuads (l : list (nat * nat * Qc)).

Definition same_pair (u v i j : nat) : bool := ((u =? i) && (v =? j) || (u =? j) && (v =? i))%nat.
Definition at_lin (v : nat) (f : Qc -> Qc) (b : biases) : biases :=
  Biases (fun i => if (i =? v)%nat then f (b_lin b i) else b_lin b i) (b_quad b).
Definition at_quad (u v : nat) (f : Qc -> Qc) (b : biases) : biases :=
  Biases (b_lin b) (fun i j => if same_pair u v i j then f (b_quad b i j) else b_quad b i j).
Definition spec_qop (n : nat) (b : biases) (o : qop) : biases :=
  match o with
  | SetLin v c => at_lin v (fun _ => c) b
  | AddLin v c => at_lin v (fun o => o + c) b
  | SetQuad u v c => at_quad u v (fun _ => c) b
  | AddQuad u v c => at_quad u v (fun o => o + c) b
  | AddLins l => Biases (fun i => if (i <? n)%nat then b_lin b i + nth i l 0 else b_lin b i) (b_quad b)
  | AddSquares l => Biases (b_lin b)
      (fun i j => if ((i =? j) && (i <? n))%nat then b_quad b i j + nth i l 0 else b_quad b i j)
  | AddQuads l => fold_left (fun b t => at_quad (fst (fst t)) (snd (fst t)) (fun o => o + snd t) b) l b
  end.
(** Operations that name existing variables only. *)
Definition qop_in (n : nat) (o : qop) : Prop :=
  (match o with
   | SetLin v _ | AddLin v _ => v < n
   | SetQuad u v _ | AddQuad u v _ => u < n /\ v < n
   | AddLins l | AddSquares l => n <= length l
   | AddQuads l => Forall (fun t => fst (fst t) < n /\ snd (fst t) < n) l
   end)%nat.

(** The polynomial: every unordered pair (also of a variable with itself) counts once. *)
Definition qvalue (n : nat) (b : biases) (x : nat -> Qc) : Qc :=
  sumn n (fun i => b_lin b i * x i) + sumn n (fun i => sumn (S i) (fun j => b_quad b i j * x i * x j)).
Definition q_fun (n : nat) (b : biases) (ins : list (list Qc)) : option (list Qc) :=
  match ins with
  | [l] => if (length l =? n)%nat then Some [qvalue n b (fun i => nth i l 0)] else None
  | _ => None
  end.
