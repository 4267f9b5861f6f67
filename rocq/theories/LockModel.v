(** Model of the Python layer over [Graph]: locking and the stored states.
    dwave/optimization/_model.pyx ([_Graph.lock], [unlock], [is_locked], [remove_unused_symbols],
    [Symbol.has_state], [reset_state], [ArraySymbol.state]), model.py ([Model.lock], [unlock]),
    states.pyx ([States]), symbols.pyx ([set_state] of the decisions).
    Futures ([resolve]) and reference counting are left out; a symbol refers to a live node. *)
From Verif Require Import Base GraphModel.

Section Lock.
Context {S : Type}.
(** What [initialize_state] of a node stores, given the states of its predecessors (for a decision:
    the default state). *)
Variable ninit : nat -> list S -> S.
(** The class of the symbol of a node. *)
Variable kind : nat -> nat.

(** [_Graph] with its [states]: [_graph], [_lock_count], [_states]. *)
Record model := Model { mg : graph; mlocks : nat; mstates : list (list (option S)) }.
Definition m_empty : model := Model g_empty 0 [].

(** [is_locked], _model.pyx:361-369. *)
Definition is_locked (m : model) : bool := 0 <? mlocks m.

(** [std::vector::resize]. *)
Definition vresize {A} (k : nat) (d : A) (l : list A) : list A := firstn k l ++ repeat d (k - length l).

(** [Graph::num_decisions] *)
Definition num_decisions (m : model) : nat := length (gdec (mg m)).

(** [_Graph.lock], _model.pyx:418-432 ([None] is undefined behaviour; the flag tells whether no
    exception was raised). *)
Definition lock (m : model) : option (model * bool) :=
  match topological_sort (mg m) with
  | Ok g => Some (Model g (mlocks m + 1) (mstates m), true)
  | Throw => Some (m, false)      (* the indices are left half assigned then; see [topological_sort] *)
  | UB => None
  end.
(** [_Graph.unlock], _model.pyx:638-654, and [Model.unlock], model.py:491-499, with
    [States._reset_intermediate_states], states.pyx:224-229. *)
Definition unlock (m : model) : model :=
  if negb (is_locked m) then m
  else let m := Model (mg m) (mlocks m - 1) (mstates m) in
       let m := if mlocks m <? 1 then Model (reset_topological_sort (mg m)) (mlocks m) (mstates m) else m in
       if negb (is_locked m) then Model (mg m) (mlocks m) (map (vresize (num_decisions m) None) (mstates m)) else m.

(** [topological_index()] of a symbol's node; [None] if negative. *)
Definition index_of (m : model) (n : nat) : option nat := tidx (mg m) n.
Definition stored (m : model) (st : list (option S)) (n : nat) : option S :=
  match index_of m n with
  | Some k => match nth_error st k with Some x => x | None => None end
  | None => None
  end.
Definition fuel_of (m : model) : nat := length (gnodes (mg m)) + 1.

(** [Symbol.reset_state], _model.pyx:976-994; [UB] cannot be told from running out of fuel here. *)
Definition reset_state (m : model) (n i : nat) : option (model * bool) :=
  match nth_error (mstates m) i with
  | None => Some (m, false)
  | Some st =>
      match index_of m n with
      | None => Some (m, true)
      | Some k =>
          let st := if length st <=? k then vresize (k + 1) None st else st in
          match recursive_reset (mg m) (fuel_of m) st n with
          | Ok st => Some (Model (mg m) (mlocks m) (lset i st (mstates m)), true)
          | _ => None
          end
      end
  end.

(** [set_state] of a decision, e.g. symbols.pyx:1704-1726: [value] is [None] if the C++ side refuses
    it, which happens after the reset. *)
Definition set_state (m : model) (n i : nat) (value : option S) : option (model * bool) :=
  match reset_state m n i with
  | Some (m', true) =>
      match value, index_of m' n, nth_error (mstates m') i with
      | None, _, _ => Some (m', false)
      | Some v, Some k, Some st => if k <? length st then Some (Model (mg m') (mlocks m') (lset i (lset k (Some v) st) (mstates m')), true) else None
      | _, _, _ => None
      end
  | r => r
  end.

(** [ArraySymbol.state], _model.pyx:1437-1441, and [StateView], states.pyx:290-300. *)
Definition read_state (m : model) (n i : nat) : option (model * option S) :=
  if negb (alive (mg m) n) then None else
  match is_locked m, index_of m n with
  | false, None => Some (m, None)
  | _, _ =>
      match nth_error (mstates m) i with
      | None => Some (m, None)
      | Some st =>
          match recursive_initialize ninit (mg m) (fuel_of m) st n with
          | Ok st' => match stored m st' n with
                      | Some x => Some (Model (mg m) (mlocks m) (lset i st' (mstates m)), Some x)
                      | None => None
                      end
          | Throw => Some (m, None)
          | UB => None
          end
      end
  end.

(** [States.initialize], states.pyx:189-201. *)
Definition initialize_all (m : model) : option (model * bool) :=
  if negb (is_locked m) then Some (m, false)
  else match rfold (fun acc st => match initialize_state ninit (mg m) (vresize (length (gnodes (mg m))) None st) with
                                  | Ok st => Ok (acc ++ [st])
                                  | Throw => Throw
                                  | UB => UB
                                  end) [] (mstates m) with
       | Ok sts => Some (Model (mg m) (mlocks m) sts, true)
       | _ => None
       end.

(** [States.from_file], states.pyx:138-171: [fk] are the classes of the symbols of the model in the
    file, in its order, [sts] the states that were read.  [isinstance] is simplified to equality. *)
Definition states_from_file (m : model) (fk : list nat) (sts : list (list (option S))) : model * bool :=
  if forallb (fun '(a, n) => Nat.eqb a (kind n)) (combine fk (gnodes (mg m))) then (Model (mg m) (mlocks m) sts, true)
  else (m, false).

(** What a user can do. [MIAdd] is [NaryAdd.__iadd__], symbols.pyx:2162-2166; [MName n b]: a Python
    variable naming the symbol comes or goes. *)
Inductive mop :=
| MLock | MUnlock
| MDecision | MAdd (preds : list nat) | MIAdd (n p : nat) | MRemove
| MObjective (n : nat) | MConstraint (n : nat) | MName (n : nat) (b : bool)
| MResize (k : nat) | MInitialize | MRead (n i : nat) | MReset (n i : nat) | MSet (n i : nat) (value : option S)
| MFile (fk : list nat) (sts : list (list (option S))).

Definition on_graph (m : model) (r : res graph) : option (model * bool) :=
  match r with
  | Ok g => Some (Model g (mlocks m) (mstates m), true)
  | Throw => Some (m, false)
  | UB => None
  end.

(** The flag tells whether no exception was raised. *)
Definition m_step (m : model) (o : mop) : option (model * bool) :=
  match o with
  | MLock => lock m
  | MUnlock => Some (unlock m, true)
  | MDecision => on_graph m (g_step (mg m) GDecision)
  | MAdd ps => on_graph m (g_step (mg m) (GAdd true ps))
  | MIAdd n p => on_graph m (g_step (mg m) (GAddEdge n p))
  | MRemove => if is_locked m then Some (m, false) else on_graph m (g_step (mg m) (GRemove false)) (* _model.pyx:617-619 *)
  | MObjective n => on_graph m (g_step (mg m) (GObjective n))
  | MConstraint n => on_graph m (g_step (mg m) (GConstraint n))
  | MName n b => on_graph m (g_step (mg m) (GListen n b))
  | MResize k => Some (Model (mg m) (mlocks m) (vresize k [] (mstates m)), true) (* [States.resize], [clear] *)
  | MInitialize => initialize_all m
  | MRead n i => match read_state m n i with
                 | Some (m', Some _) => Some (m', true)
                 | Some (m', None) => Some (m', false)
                 | None => None
                 end
  | MReset n i => if alive (mg m) n then reset_state m n i else None
  | MSet n i v => if existsb (Nat.eqb n) (gdec (mg m)) then set_state m n i v else None (* decisions only have the method *)
  | MFile fk sts => Some (states_from_file m fk sts)
  end.
End Lock.
Arguments model : clear implicits.
Arguments mop : clear implicits.
