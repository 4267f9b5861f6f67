(** Whole numbers as doubles, and what sums and products should show.  A double is a number of the
    IEEE 754 format binary64 in the standard library's specification of floating-point numbers: a sign,
    a mantissa [m] and an exponent [e], standing for [m * 2^e]. *)
From Coq.Floats Require Import SpecFloat.
From Coq Require Import Permutation.
From Verif Require Import Base StateDataModel StateDataSpec.
Local Open Scope Z_scope.

(** The double stands for the whole number [z]; both zeros stand for 0. *)
Definition whole (x : spec_float) (z : Z) : Prop :=
  match x with
  | S754_zero _ => z = 0
  | S754_finite s m e => valid_binary 53 1024 x = true /\
      (if s then - Zpos m else Zpos m) * 2 ^ (Z.max e 0) = z * 2 ^ (Z.max (- e) 0)
  | _ => False
  end.

(** The whole numbers below this bound are all doubles. *)
Definition small (z : Z) : Prop := Z.abs z < 2 ^ 53.

Definition zsum (l : list Z) : Z := fold_right Z.add 0 l.
Definition zprod (l : list Z) : Z := fold_right Z.mul 1 l.

(** A reduction of a list in any order and with any brackets. *)
Inductive grouped {X} (op : X -> X -> X) : list X -> X -> Prop :=
| gr_one x : grouped op [x] x
| gr_op l l1 l2 x y : grouped op l1 x -> grouped op l2 y -> Permutation l (l1 ++ l2) -> grouped op l (op x y).
(** With an initial value, if there is one. *)
Definition reduced {X} (op : X -> X -> X) (init : option X) (l : list X) (r : X) : Prop :=
  grouped op (match init with Some i => i :: l | None => l end) r.

(** A change of the array is kept or undone. *)
Inductive move (U : Type) := Keep (us : list U) | Undo (us : list U).
Arguments Keep {U}. Arguments Undo {U}.
Definition updates_of {U} (m : move U) : list U := match m with Keep us => us | Undo us => us end.
Definition kept {U} (m : move U) : bool := match m with Keep _ => true | Undo _ => false end.

(** The arrays of whole numbers of a change and of a history: all satisfy [ok], and the updates satisfy [uok]. *)
Section History.
Variable ok : list Z -> Prop.
Variable uok : update Z -> Prop.
Inductive tracks : list Z -> list (update Z) -> list Z -> Prop :=
| tr_nil l : ok l -> tracks l [] l
| tr_cons l u us l1 l2 : ok l -> uok u -> replay1 Z.eqb l u = Some l1 -> tracks l1 us l2 -> tracks l (u :: us) l2.
Inductive history : list Z -> list (move (update Z)) -> list Z -> Prop :=
| hi_nil l : ok l -> history l [] l
| hi_keep l us ms l1 l2 : tracks l us l1 -> history l1 ms l2 -> history l (Keep us :: ms) l2
| hi_undo l us ms l1 l2 : tracks l us l1 -> history l ms l2 -> history l (Undo us :: ms) l2.
End History.

(** At most [L] entries, none above [B]. *)
Definition bounded_by (B : Z) (L : nat) (l : list Z) : Prop := (length l <= L)%nat /\ Forall (fun z => Z.abs z <= B) l.

(** The entries of a list that belong to group [j]. *)
Definition group {X} (f : nat -> nat) (j : nat) (l : list X) : list X :=
  map snd (filter (fun p => (f (fst p) =? j)%nat) (combine (seq 0 (length l)) l)).

(** For products: the entries are small, and so is the product of those that are not zero with the
    initial value. *)
Definition nonzero (l : list Z) : list Z := filter (fun z => negb (z =? 0)) l.
Definition tame (i0 : Z) (l : list Z) : Prop := small (i0 * zprod (nonzero l)) /\ Forall small l.
(** A change is one from zero, one to zero, or one to a multiple. *)
Definition divides_only (u : update Z) : Prop :=
  match uold u, uval u with Some x, Some v => x = 0 \/ v = 0 \/ (x | v) | _, _ => True end.
(** A change in place. *)
Definition in_place (u : update Z) : Prop := match uold u, uval u with Some _, Some _ => True | _, _ => False end.
