(** What unary, conditional, reshape and size nodes compute. *)
From Verif Require Import Base StateDataModel NodeSpec.
Section ElemSpec.
Context {V : Type}.
Variable truth : V -> bool.

Definition un_fun (f : V -> V) (ins : list (list V)) : option (list V) :=
  match ins with [a] => Some (map f a) | _ => None end.

(** A condition that is always a single number selects an operand; otherwise each element of the
    condition selects an element. *)
Definition where_fun (cs : list Z) (ins : list (list V)) : option (list V) :=
  match ins with
  | [c; x; y] =>
      if single cs then match c with [b] => Some (if truth b then x else y) | _ => None end
      else if (length c =? length x) && (length c =? length y) then
        Some (map (fun p => if truth (fst p) then fst (snd p) else snd (snd p)) (combine c (combine x y)))
      else None
  | _ => None
  end.

Definition reshape_fun (ins : list (list V)) : option (list V) :=
  match ins with [a] => Some a | _ => None end.
Definition size_fun (ofsize : nat -> V) (ins : list (list V)) : option (list V) :=
  match ins with [a] => Some [ofsize (length a)] | _ => None end.
End ElemSpec.
