(** What reading back a written model has to give. *)
From Verif Require Import Base GraphModel GraphSpec LockModel IoModel.

(** [n] is the [i]-th node of [m]. *)
Definition at_pos {S} (m : model S) (i n : nat) : Prop := nth_error (gnodes (mg m)) i = Some n.

(** [m'] is the same model as the first [stop] nodes of [m], with [num] states: the nodes correspond by
    position, the [i]-th of [m'] being node [i]. *)
Record same_model {S} (m m' : model S) (stop num : nat) : Prop := {
  sm_nodes : gnodes (mg m') = seq 0 stop;
  sm_dec : gdec (mg m') = seq 0 (length (gdec (mg m)));
  sm_pred : forall i n, i < stop -> at_pos m i n -> Forall2 (at_pos m) (oget (gpred (mg m')) i) (oget (gpred (mg m)) n);
  sm_obj : forall i, gobj (mg m') = Some i <-> i < stop /\ exists n, at_pos m i n /\ gobj (mg m) = Some n;
  sm_cons : exists cs, Forall2 (fun i n => at_pos m i n /\ i < stop) (gcons (mg m')) cs /\
                       cs = filter (fun n => existsb (Nat.eqb n) (firstn stop (gnodes (mg m)))) (gcons (mg m));
  sm_num : length (mstates m') = num;
  sm_states : forall i k n st st', at_pos m k n -> k < stop -> nth_error (mstates m) i = Some st -> nth_error (mstates m') i = Some st' ->
    state_of (mg m') st' k = if k <? length (gdec (mg m)) then state_of (mg m) st n else None }.
