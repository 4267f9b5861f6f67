(** Model of states that arrive later: [States.from_future], [resolve] and the calls of [resolve] (dwave/optimization/states.pyx), around the model of [LockModel.v]. *)
From Verif Require Import Base GraphModel LockModel.

Section Future.
Context {S : Type}.
Variable ninit : nat -> list S -> S.
Variable kind : nat -> nat.
(** What [result_hook(model, future)] will do: attach states ([attach_states], states.pyx:87-99), or raise.  Simplified: the states do not depend on the model at the time of the call. *)
Definition outcome := option (list (list (option S))).
(** The model, [_future] with [_result_hook], and the hooks called so far. *)
Record fmodel := F { fm : model S; fpend : option outcome; fcalled : list outcome }.
Definition with_states (m : model S) (sts : list (list (option S))) : model S := Model (mg m) (mlocks m) sts.
(** [States.resolve], states.pyx:261-276: the future is forgotten before the hook is called.  The flag tells whether no exception was raised. *)
Definition resolve (f : fmodel) : fmodel * bool :=
  match fpend f with
  | None => (f, true)
  | Some (Some sts) => (F (with_states (fm f) sts) None (fcalled f ++ [Some sts]), true)
  | Some None => (F (fm f) None (fcalled f ++ [None]), false)
  end.
(** What is seen of a step: whether no exception was raised, and the state that was read. *)
Definition seen := (bool * option S)%type.
(** A step of [LockModel.v] with what is seen of it. *)
Definition m_look (m : model S) (o : mop S) : option (model S * seen) :=
  match o with
  | MRead n i => match read_state ninit m n i with
                 | Some (m', v) => Some (m', (match v with Some _ => true | None => false end, v))
                 | None => None
                 end
  | _ => match m_step ninit kind m o with Some (m', b) => Some (m', (b, None)) | None => None end
  end.
(** An operation that calls [resolve] first: [state] and [StateView] (_model.pyx:1430), [reset_state] (981) and so [set_state], [resize] (states.pyx:254), [initialize] (193), [from_file] (156). *)
Definition f_then (f : fmodel) (o : mop S) : option (fmodel * seen) :=
  let '(f1, ok) := resolve f in
  if ok then match m_look (fm f1) o with Some (m', s) => Some (F m' (fpend f1) (fcalled f1), s) | None => None end
  else Some (f1, (false, None)).
(** One that does not. *)
Definition f_direct (f : fmodel) (o : mop S) : option (fmodel * seen) :=
  match m_look (fm f) o with Some (m', s) => Some (F m' (fpend f) (fcalled f), s) | None => None end.
(** [Model.unlock], model.py:491-499: the graph is unlocked first; [_reset_intermediate_states] (states.pyx:225-229) then asks for [size()] and so resolves. *)
Definition f_unlock (f : fmodel) : fmodel * seen :=
  let m := fm f in
  if negb (is_locked m) then (f, (true, None))
  else let m := Model (mg m) (mlocks m - 1) (mstates m) in
       let m := if mlocks m <? 1 then Model (reset_topological_sort (mg m)) (mlocks m) (mstates m) else m in
       let f := F m (fpend f) (fcalled f) in
       if is_locked m then (f, (true, None))
       else let '(f1, ok) := resolve f in
            if ok then (F (with_states (fm f1) (map (vresize (num_decisions (fm f1)) None) (mstates (fm f1)))) (fpend f1) (fcalled f1), (true, None))
            else (f1, (false, None)).
(** What a user can do: as before, or [from_future] (states.pyx:174-189): [resize(0)] resolves an earlier future first. *)
Inductive fop := FOp (o : mop S) | FFuture (r : outcome).
Definition f_step (f : fmodel) (o : fop) : option (fmodel * seen) :=
  match o with
  | FFuture r => let '(f1, ok) := resolve f in
                 if ok then Some (F (with_states (fm f1) (vresize 0 [] (mstates (fm f1)))) (Some r) (fcalled f1), (true, None)) else Some (f1, (false, None))
  | FOp MUnlock => Some (f_unlock f)
  | FOp ((MResize _ | MInitialize | MRead _ _ | MReset _ _ | MSet _ _ _ | MFile _ _) as o) => f_then f o
  | FOp o => f_direct f o
  end.
Fixpoint f_run (f : fmodel) (os : list fop) : option (fmodel * list seen) :=
  match os with
  | [] => Some (f, [])
  | o :: os' => match f_step f o with
                | Some (f1, s) => match f_run f1 os' with Some (f2, l) => Some (f2, s :: l) | None => None end
                | None => None
                end
  end.
End Future.
Arguments fmodel : clear implicits.
Arguments fop : clear implicits.
Arguments outcome : clear implicits.
