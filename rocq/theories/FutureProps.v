(** C71: states that arrive later.  Modelled in [FutureModel.v]. *)
From Verif Require Import Base GraphModel LockModel FutureModel FutureSpec FutureProofs.

(** Whatever is done between asking for a computation and looking at its result, and whenever that is: what is seen of every operation, and the model in the end, are as if the states
    had been attached at once. *)
Theorem C71_deferred S (ninit : nat -> list S -> S) kind m os c : Forall succeeds os ->
  option_map (fun r => (settled (fst r), snd r)) (f_run ninit kind (F m None c) os) = e_run ninit kind m os.
Proof. intros G. refine (deferred ninit kind os (F m None c) _ G). discriminate. Qed.
Print Assumptions C71_deferred.
(** The hook of every accepted future is called once, in order, except perhaps for the last that is still pending. *)
Theorem C71_once S (ninit : nat -> list S -> S) kind m os f l : f_run ninit kind (F m None []) os = Some (f, l) ->
  fcalled f ++ (match fpend f with Some r => [r] | None => [] end) = accepted os l.
Proof. exact (@run_called S ninit kind os (F m None []) f l). Qed.
Print Assumptions C71_once.
(** A hook that raises: so does the first operation that looks at the states, which has no effect then, except that releasing the last lock releases it. *)
Theorem C71_failing S (ninit : nat -> list S -> S) kind m c o :
  match o with FOp (MResize _ | MInitialize | MRead _ _ | MReset _ _ | MSet _ _ _ | MFile _ _) | FFuture _ => True | FOp MUnlock => mlocks m = 1 | _ => False end ->
  exists m', f_step ninit kind (F m (Some None) c) o = Some (F m' None (c ++ [None]), (false, None)) /\ mstates m' = mstates m /\ (o <> FOp MUnlock -> m' = m) /\
    (o = FOp MUnlock -> is_locked m' = false).
Proof.
  intros H. destruct (@failing S ninit kind m c o) as (m' & E & A & B).
  - destruct o as [o|r]; [|exact I]. destruct o; try contradiction; (split; [exact (fun F => F)|intros E; (discriminate E || exact H)]).
  - exists m'. split; [exact E|]. split; [exact A|]. split; [exact B|]. intros ->. cbn [f_step] in E. injection E as E. destruct m as [g k st]. cbn in H. subst k. cbn in E. injection E as <-. reflexivity.
Qed.
Print Assumptions C71_failing.
(** Among these is asking for another computation: the failure of an earlier one is raised there, and the new one is forgotten. *)
Theorem C71_lost_refuted : exists f, f_run (fun _ _ => 0) (fun _ => 0) (F (m_empty (S := nat)) None []) [FFuture None; FFuture (Some [[Some 7]])] = Some (f, [(true, None); (false, None)]) /\
  fpend f = None /\ mstates (fm f) = [].
Proof. eexists. split; [reflexivity|]. split; reflexivity. Qed.
Print Assumptions C71_lost_refuted.

(** A decision and a node on it; a result for both arrives while another symbol is added; after locking the node's state is computed anew. *)
Definition ex_os : list (fop nat) :=
  [FOp MDecision; FOp (MAdd [0]); FOp MLock; FFuture (Some [[Some 5; Some 6]; [Some 8]]); FOp MUnlock; FOp (MAdd [1]); FOp MLock; FOp (MRead 1 0); FOp (MRead 0 1); FOp (MRead 2 0)].
Definition ex_init (n : nat) (vs : list nat) : nat := fold_right Nat.add n vs.
Example C71_ex : Forall succeeds ex_os /\
  option_map snd (f_run ex_init (fun _ => 0) (F (m_empty (S := nat)) None []) ex_os) =
    Some [(true, None); (true, None); (true, None); (true, None); (true, None); (true, None); (true, None); (true, Some 6); (true, Some 8); (true, Some 8)] /\
  option_map (fun r => fcalled (fst r)) (f_run ex_init (fun _ => 0) (F (m_empty (S := nat)) None []) ex_os) = Some [Some [[Some 5; Some 6]; [Some 8]]].
Proof. split; [repeat constructor|]. split; reflexivity. Qed.
(** Still pending after operations that do not look. *)
Example C71_pending_ex : option_map (fun r => (fpend (fst r), fcalled (fst r))) (f_run ex_init (fun _ => 0) (F (m_empty (S := nat)) None []) [FFuture (Some [[Some 5]]); FOp MDecision; FOp MLock]) =
  Some (Some (Some [[Some 5]]), []).
Proof. reflexivity. Qed.
