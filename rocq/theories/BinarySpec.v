(** Elementwise operations on two arrays, independently of the code. *)
From Verif Require Import Base StateDataModel NodeSpec.

Section BinarySpec.
Context {V : Type}.
Variable op : V -> V -> V.

(** One operand has always one element, or both have the same fixed shape. *)
Definition bin_value (ls rs : list Z) (a b : list V) : option (list V) :=
  if single ls then match a with [x] => Some (map (op x) b) | _ => None end
  else if single rs then match b with [y] => Some (map (fun x => op x y) a) | _ => None end
  else if length a =? length b then Some (map (fun p => op (fst p) (snd p)) (combine a b)) else None.

(** The situation the code mishandles: one operand has a fixed size 1, the other has a
    state-dependent size that happens to be 1, and both have the same number of dimensions. *)
Definition clash (ls rs : list Z) (a b : list V) : bool :=
  xorb (dynamic ls) (dynamic rs) && (length ls =? length rs) && (length a =? 1) && (length b =? 1).

Definition bin_fun (ls rs : list Z) (ins : list (list V)) : option (list V) :=
  match ins with
  | [a; b] => if clash ls rs a b then None else bin_value ls rs a b
  | _ => None
  end.
End BinarySpec.

(** NumPy's rule for reading an operand of shape [s] at the multi-index [idx] of the result: align on
    the right, and read an axis of length one at 0. *)
Definition bc_index (s idx : list Z) : list Z :=
  map (fun p => if (fst p =? 1)%Z then 0%Z else snd p) (combine s (skipn (length idx - length s) idx)).
