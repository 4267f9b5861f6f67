(** Whole models: contracts of nodes, evaluation from scratch, and histories of proposals. *)
From Coq Require Import Relations.
From Verif Require Import Base StateDataModel NodeSpec GraphModel GraphSpec ViewModel ProposeModel.

Section Spec.
Context {V : Type}.
Variable veqb : V -> V -> bool.

(** As [vnode_ok], of a node that may count on [Gs] of the changes of its predecessors and guarantees
    [Gout] of its own. *)
Definition contract (N : vnode V) (Gs : list (pin V -> Prop)) (Gout : pin V -> Prop) (F : list (list V) -> option (list V))
  (clean : list (list V) -> vn_ST N -> Prop) : Prop :=
  (forall ins v, Forall2 fits (vn_pre N) ins -> F ins = Some v ->
     fits (vn_shape N) v /\ exists s, vn_init N (map still ins) = Ok s /\ clean ins s) /\
  (forall ins s, clean ins s -> exists v, F ins = Some v /\ Gout (still v) /\ vn_out N s (map still ins) = Some (still v)) /\
  (forall ins s v pins v', clean ins s -> F ins = Some v ->
     Forall2 (fun si p => pin_ok veqb (fst si) (snd si) p) (combine (vn_pre N) ins) pins -> length (vn_pre N) = length ins ->
     Forall2 (fun (G : pin V -> Prop) p => G p) Gs pins ->
     F (map pview pins) = Some v' ->
     exists s', vn_prop N s pins = Ok s' /\
       (exists p, vn_out N s' pins = Some p /\ pview p = v' /\ pin_ok veqb (vn_shape N) v p /\ Gout p) /\
       (exists s'', vn_commit N s' (map still (map pview pins)) = Ok s'' /\ clean (map pview pins) s'') /\
       exists s'', vn_revert N s' (map still ins) = Ok s'' /\ clean ins s'').
Definition computes N Gs Gout F : Prop := exists clean, contract N Gs Gout F clean.

(** A decision: after any sequence of moves ([step]) from a state without pending updates, what it exposes is
    in order, [propagate] changes nothing, commit keeps the new value and revert brings back the old one. *)
Definition dcontract (D : vnode V) (G : pin V -> Prop) (start : vn_ST D -> Prop) (step : vn_ST D -> vn_ST D -> Prop)
  (clean : list V -> vn_ST D -> Prop) : Prop :=
  (forall s, start s -> exists v, clean v s) /\
  (forall v s, clean v s -> fits (vn_shape D) v /\ G (still v) /\ vn_out D s [] = Some (still v)) /\
  (forall v s s', clean v s -> clos_refl_trans _ step s s' -> vn_prop D s' [] = Ok s' /\
     (exists p, vn_out D s' [] = Some p /\ pin_ok veqb (vn_shape D) v p /\ G p /\ exists c, vn_commit D s' [] = Ok c /\ clean (pview p) c) /\
     exists r, vn_revert D s' [] = Ok r /\ clean v r).
Definition decides D G start step : Prop := exists clean, dcontract D G start step clean.

(** A model: nodes [N] on a graph, with guarantees [G], functions [F], and for decisions the initial states and moves. *)
Variable N : nat -> vnode V.
Variable G : nat -> pin V -> Prop.
Variable F : nat -> list (list V) -> option (list V).
Variable start : forall n, vn_ST (N n) -> Prop.
Variable step : forall n, vn_ST (N n) -> vn_ST (N n) -> Prop.
Variable g : graph.
Definition wf_model : Prop := (exists ops, history ops = Ok g) /\ gsorted g = true /\ acyclic g /\
  forall n, In n (gnodes g) ->
    vn_pre (N n) = map (fun m => vn_shape (N m)) (oget (gpred g) n) /\
    if is_decision g n then decides (N n) (G n) (start n) (step n) else computes (N n) (map G (oget (gpred g) n)) (G n) (F n).

(** [val] is the evaluation of the whole model for decision values [dv]. *)
Definition evaluation (dv val : nat -> list V) : Prop :=
  forall n, In n (gnodes g) -> if is_decision g n then val n = dv n else F n (map val (oget (gpred g) n)) = Some (val n).

(** Every node has the value [val] and no updates pending. *)
Definition shows (st : states N) (val : nat -> list V) : Prop := forall n, In n (gnodes g) -> pin_of N g st n = Some (still (val n)).

(** Before initialisation: decisions may have been given a state. *)
Definition starting (st : states N) (dv : nat -> list V) : Prop := forall n, In n (gnodes g) ->
  if is_decision g n then exists s, (st n = Some s \/ (st n = None /\ vn_init (N n) [] = Ok s)) /\ start n s /\ vn_out (N n) s [] = Some (still (dv n))
  else st n = None.

(** Moves of the decisions [sources]. *)
Definition moved (sources : list nat) (st st1 : states N) : Prop := NoDup sources /\ incl sources (gdec g) /\
  forall n, (In n sources -> exists s s', st n = Some s /\ st1 n = Some s' /\ clos_refl_trans _ (step n) s s') /\ (~ In n sources -> st1 n = st n).
Definition decided (st : states N) (dv : nat -> list V) : Prop := forall d, In d (gdec g) -> exists p, pin_of N g st d = Some p /\ pview p = dv d.

(** States between proposals; the evaluation is defined for the values the decisions are moved to. *)
Inductive reachable (dbg : bool) : states N -> Prop :=
| rc_init st0 dv val st : starting st0 dv -> evaluation dv val -> initialize_all N g st0 = Ok st -> reachable dbg st
| rc_propose st sources st1 dv val accept marks st2 : reachable dbg st -> moved sources st st1 -> decided st1 dv -> evaluation dv val ->
    propose dbg N g (repeat false (length (gnodes g))) sources accept st1 = Ok (marks, st2) -> reachable dbg st2.
End Spec.

(** ** Guarantees of the decisions *)
From Verif Require Import Num NumbersModel CollectionsModel.
(** Every value exposed, or in the log of changes, satisfies [D]. *)
Definition within {V} (D : V -> Prop) (p : pin V) : Prop :=
  Forall D (pview p) /\ Forall (fun u => forall x, uold u = Some x \/ uval u = Some x -> D x) (pdiff p).
Definition whole (lo hi : Z) (x : num) : Prop := exists z, x = zq z /\ (lo <= z <= hi)%Z.

(** The initial states and the moves of an integer or binary array, of a list and of a set. *)
Definition number_start (n : inode) (d : @adata num) : Prop := exists data, number_init n data = Ok d.
Definition number_move (n : inode) (d d' : @adata num) : Prop :=
  exists o b, nop_allowed n o = true /\ o <> NCommit /\ o <> NRevert /\ n_step n d o = Ok (d', b).
Definition collection_start (n : cnode) (d : cdata num) : Prop :=
  (exists contents, collection_init n contents = Ok d) \/ d = list_init_default n \/ d = set_init_default n.
Definition collection_move (n : cnode) (d d' : cdata num) : Prop := exists o, o <> CCommit /\ o <> CRevert /\ c_step n d o = Some d'.
(** A constant. *)
Definition constant_fun {V} (values : list V) (ins : list (list V)) : option (list V) := match ins with [] => Some values | _ => None end.
