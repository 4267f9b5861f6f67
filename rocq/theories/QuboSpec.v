(** Polynomials given by the items of two dictionaries, independently of tables of biases. *)
From Verif Require Import Base Num NarySpec.
Local Open Scope Z_scope.

Definition var (x : list num) (i : Z) : num := nth (Z.to_nat i) x 0%Qc.
(** The sum of bias times variables over the items. *)
Definition dict_value (quad : list (Z * Z * num)) (linear : list (Z * num)) (x : list num) : num :=
  (qsum_of (map (fun e => snd e * var x (fst e)) linear) + qsum_of (map (fun t => snd t * var x (fst (fst t)) * var x (snd (fst t))) quad))%Qc.
Definition within (n : nat) (i : Z) : Prop := 0 <= i < Z.of_nat n.
Definition keys_within (n : nat) (quad : list (Z * Z * num)) (linear : list (Z * num)) : Prop :=
  Forall (fun t => within n (fst (fst t)) /\ within n (snd (fst t))) quad /\ Forall (fun e => within n (fst e)) linear.
(** The sum of the biases of the items with a given key. *)
Definition bias_of (linear : list (Z * num)) (i : Z) : num := qsum_of (map snd (filter (fun e => fst e =? i) linear)).
Definition bias_of2 (quad : list (Z * Z * num)) (i j : Z) : num := qsum_of (map snd (filter (fun t => (fst (fst t) =? i) && (snd (fst t) =? j)) quad)).
(** 64-bit and 32-bit integers; [w] is what is left of [z] in 32 bits. *)
Definition in64 (z : Z) : Prop := - 2 ^ 63 <= z < 2 ^ 63.
Definition in32 (z : Z) : Prop := - 2 ^ 31 <= z < 2 ^ 31.
Definition left32 (z w : Z) : Prop := in32 w /\ exists k, z = w + k * 2 ^ 32.
