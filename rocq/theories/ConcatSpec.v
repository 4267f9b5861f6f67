(** Concatenation along an axis, independently of the code. *)
From Verif Require Import Base ShapeSpec StateDataModel.

(** Shapes that can be concatenated along [axis]: equal everywhere else. *)
Definition joinable (axis : nat) (shapes : list (list Z)) : Prop :=
  shapes <> [] /\
  forall s t, In s shapes -> In t shapes ->
    axis < length s /\ length s = length t /\ forall i, i <> axis -> nth_error s i = nth_error t i.

Fixpoint zsum (l : list Z) : Z := match l with [] => 0%Z | x :: t => (x + zsum t)%Z end.
Definition widths (axis : nat) (shapes : list (list Z)) : list Z := map (fun s => nth axis s 0%Z) shapes.

(** [out] is the shape of the concatenation. *)
Definition joined (axis : nat) (shapes : list (list Z)) (out : list Z) : Prop :=
  nth_error out axis = Some (zsum (widths axis shapes)) /\
  forall s, In s shapes -> length out = length s /\ forall i, i <> axis -> nth_error out i = nth_error s i.

(** A multi-index moved by [k] along [axis]. *)
Definition shift (axis : nat) (k : Z) (idx : list Z) : list Z := lset axis (nth axis idx 0%Z + k)%Z idx.

(** [v] holds, for every operand, its elements moved along the axis by the operands before it. *)
Definition concatenated {V} (axis : nat) (shapes : list (list Z)) (out : list Z) (ops : list (list V)) (v : list V) : Prop :=
  Z.of_nat (length v) = prod out /\
  forall i s l idx, nth_error shapes i = Some s -> nth_error ops i = Some l -> in_range s idx ->
    nth_error v (Z.to_nat (rank out (shift axis (zsum (widths axis (firstn i shapes))) idx))) =
    nth_error l (Z.to_nat (rank s idx)).

(** Writing the new values of an update list, whatever the old values it records. *)
Fixpoint rewrite_with {V} (l : list V) (us : list (update V)) : option (list V) :=
  match us with
  | [] => Some l
  | u :: t => match uval u with
              | Some v => if uidx u <? length l then rewrite_with (lset (uidx u) v l) t else None
              | None => None
              end
  end.
