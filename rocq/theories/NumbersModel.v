(** Model of [NumberNode], [IntegerNode], [BinaryNode]: src/nodes/numbers.cpp and
    include/dwave-optimization/nodes/numbers.hpp. *)
From Verif Require Import Base Num StateDataModel.
Set Implicit Arguments.

(** The constant part of an integer/binary node: number of elements (product of a static shape),
    bounds, and whether it is a [BinaryNode].  Bounds are C++ [int]s held as doubles. *)
Record inode := INode { isize : nat; ilo : Z; ihi : Z; ibinary : bool }.

(** numbers.hpp:104-107. *)
Definition minimum_lower_bound : Z := -2000000000.
Definition maximum_upper_bound : Z := 2000000000.

(** [NumberNode] constructor (numbers.hpp:64-69) followed by [IntegerNode] constructor
    (numbers.cpp:102-109).  [None]: [std::invalid_argument]. *)
Definition integer_node (size : nat) (lower upper : option Z) : option inode :=
  let lo := match lower with Some l => l | None => 0 end%Z in
  let hi := match upper with Some u => u | None => maximum_upper_bound end in
  if (hi <? lo)%Z then None
  else if (lo <? minimum_lower_bound)%Z || (maximum_upper_bound <? hi)%Z then None
  else Some {| isize := size; ilo := lo; ihi := hi; ibinary := false |}.

(** [BinaryNode] constructors, numbers.hpp:141-142. *)
Definition binary_node (size : nat) : inode :=
  {| isize := size; ilo := 0; ihi := 1; ibinary := true |}.

(** [IntegerNode::is_valid], numbers.cpp:117-119. *)
Definition is_valid (n : inode) (value : num) : bool :=
  qleb (zq (ilo n)) value && qleb value (zq (ihi n)) && qeqb (qround value) value.

(** [IntegerNode::default_value], numbers.cpp:126-128. *)
Definition default_value (n : inode) : num :=
  if (ilo n <=? 0)%Z && (0 <=? ihi n)%Z then zq 0 else zq (ilo n).

(** [NumberNode::initialize_state(State&, std::vector<double>&&)], numbers.cpp:45-60.  The templated
    overload (numbers.hpp:81-99) makes the same two checks and then calls this one. *)
Definition number_init (n : inode) (data : list num) : res (@adata num) :=
  if negb (length data =? isize n) then Throw
  else if existsb (fun v => negb (is_valid n v)) data then Throw
  else Ok (a_init data).

(** [NumberNode::initialize_state(State&)], numbers.cpp:62-69. *)
Definition number_init_default (n : inode) : res (@adata num) :=
  number_init n (repeat (default_value n) (isize n)).

(** [NumberNode::initialize_state(State&, RngAdaptor&)], numbers.cpp:71-79.  [draw k] is the k-th
    result of [uniform_int_distribution(lower_bound_, upper_bound_)] (numbers.cpp:121-124). *)
Definition number_init_random (n : inode) (draw : nat -> Z) : res (@adata num) :=
  number_init n (map (fun k => zq (draw k)) (seq 0 (isize n))).

Definition of_opt {A} (o : option A) : res A := match o with Some a => Ok a | None => UB end.

(** [IntegerNode::set_value], numbers.cpp:134-139. *)
Definition set_value (n : inode) (d : @adata num) (i : nat) (value : Z) : res (@adata num * bool) :=
  if negb (is_valid n (zq value)) then Throw else of_opt (a_set qeqb d i (zq value)).

(** [NumberNode::exchange], numbers.cpp:82-84. *)
Definition exchange (d : @adata num) (i j : nat) : res (@adata num * bool) :=
  of_opt (a_exchange qeqb d i j).

(** [BinaryNode::flip], numbers.cpp:153-160 (returns nothing; the flag is the one of [set]). *)
Definition flip (d : @adata num) (i : nat) : res (@adata num * bool) :=
  match a_get d i with
  | None => UB
  | Some v => of_opt (a_set qeqb d i (if q2b v then zq 0 else zq 1))
  end.

(** [BinaryNode::set], [BinaryNode::unset], numbers.cpp:162-168. *)
Definition bset (d : @adata num) (i : nat) : res (@adata num * bool) := of_opt (a_set qeqb d i (zq 1)).
Definition bunset (d : @adata num) (i : nat) : res (@adata num * bool) := of_opt (a_set qeqb d i (zq 0)).

(** [IntegerNode::default_move], numbers.cpp:141-145.  The value distribution is over
    [std::size_t]: a negative bound converted to it, or an empty array ([size - 1] wraps), is out of
    the domain where the call is meaningful.  [i], [v] are the two draws. *)
Definition integer_default_move (n : inode) (d : @adata num) (i : nat) (v : Z)
  : res (@adata num * bool) :=
  if (length (abuf d) =? 0) || (ilo n <? 0)%Z then UB else set_value n d i v.

(** [BinaryNode::default_move], numbers.cpp:170-173. *)
Definition binary_default_move (d : @adata num) (i : nat) : res (@adata num * bool) :=
  if length (abuf d) =? 0 then UB else flip d i.

(** Everything a caller can do to the state between initialisation and destruction. *)
Inductive nop :=
| NSet (i : nat) (v : Z) | NExchange (i j : nat) | NFlip (i : nat) | NOn (i : nat) | NOff (i : nat)
| NCommit | NRevert.

(** [flip]/[set]/[unset] exist on [BinaryNode] only. *)
Definition nop_allowed (n : inode) (o : nop) : bool :=
  match o with NFlip _ | NOn _ | NOff _ => ibinary n | _ => true end.

Definition n_step (n : inode) (d : @adata num) (o : nop) : res (@adata num * bool) :=
  match o with
  | NSet i v => set_value n d i v
  | NExchange i j => exchange d i j
  | NFlip i => flip d i
  | NOn i => bset d i
  | NOff i => bunset d i
  | NCommit => Ok (a_commit d, false)
  | NRevert => match a_revert (zq 0) d with Some d' => Ok (d', false) | None => UB end
  end.

(** A history; a thrown exception leaves the state as it was and the caller carries on. *)
Fixpoint n_run (n : inode) (d : @adata num) (os : list nop) : option (@adata num) :=
  match os with
  | [] => Some d
  | o :: r => match n_step n d o with
              | Ok (d', _) => n_run n d' r
              | Throw => n_run n d r
              | UB => None
              end
  end.
