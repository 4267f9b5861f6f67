(** Model of [state_size] and of the header of a model file (dwave/optimization/_model.pyx).  A model is the list of its
    nodes, numbered by their position; a node that is not an array is [None].  Simplification: as in [SizeModel]; sums of
    state sizes are unbounded integers. *)
From Verif Require Import Base SliceModel ArithModel GraphModel SizeModel.
Local Open Scope Z_scope.

Definition arrays_of (nodes : list (option arr)) (id : nat) : option arr := match nth_error nodes id with Some (Some a) => Some a | _ => None end.
(** [Array::itemsize] of every array, array.hpp. *)
Definition itemsize : Z := 8.
(** [ArraySymbol.state_size], _model.pyx:1472-1500. *)
Definition array_state_size (nodes : list (option arr)) (id : nat) : res Z :=
  let ctx := arrays_of nodes in
  match ctx id with
  | Some (AFixed n) => Ok (n * itemsize)
  | _ =>
      rbind (info ctx id) (fun i =>
      rbind (if ptr_eqb (si_ptr i) (Some id) then Ok i else substitute ctx (length nodes) i) (fun i =>
      match si_max i with
      | None => Throw
      | Some m => Ok (m * itemsize)
      end))
  end.
(** [Symbol.state_size], _model.pyx:1022-1043, and its override. *)
Definition state_size (nodes : list (option arr)) (id : nat) : res Z :=
  match nth_error nodes id with
  | None => UB
  | Some None => Ok 0
  | Some (Some _) => array_state_size nodes id
  end.
(** [sum(sym.state_size() for sym in ...)], _model.pyx:108, 636. *)
Definition total_size (nodes : list (option arr)) (ids : list nat) : res Z :=
  rfold (fun acc id => rbind (state_size nodes id) (fun b => Ok (acc + b))) 0 ids.
(** [_header_data], _model.pyx:218-235, of a model whose first [decisions] nodes are its decisions: decision_state_size,
    num_nodes, state_size and num_states. *)
Definition header_data (nodes : list (option arr)) (decisions : nat) (num_states : Z) (only_decision : bool) : res (Z * Z * Z * Z) :=
  rbind (total_size nodes (seq 0 decisions)) (fun d =>
  rbind (if only_decision then Ok d else total_size nodes (seq 0 (length nodes))) (fun s =>
  Ok (d, Z.of_nat (if only_decision then decisions else length nodes), s, num_states))).
