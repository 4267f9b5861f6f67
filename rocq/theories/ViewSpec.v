(** What a view shows of an array, and the contract of a node that reads its predecessors in [commit]
    and [revert] too. *)
From Verif Require Import Base StateDataModel ShapeSpec NodeSpec SliceModel BasicModel BasicSpec ViewModel.

Section VS.
Context {V : Type}.
Variable veqb : V -> V -> bool.

(** As [node_ok]; commit comes after the predecessors' commit, revert after their revert. *)
Record vnode_ok (N : vnode V) (F : list (list V) -> option (list V)) : Prop := {
  vk_ok : exists clean : list (list V) -> vn_ST N -> Prop,
    (forall ins v, Forall2 fits (vn_pre N) ins -> F ins = Some v ->
       fits (vn_shape N) v /\ exists s, vn_init N (map still ins) = Ok s /\ clean ins s) /\
    (forall ins s, clean ins s ->
       exists v, F ins = Some v /\ vn_out N s (map still ins) = Some (still v)) /\
    (forall ins s v pins v', clean ins s -> F ins = Some v ->
       Forall2 (fun si p => pin_ok veqb (fst si) (snd si) p) (combine (vn_pre N) ins) pins ->
       length (vn_pre N) = length ins ->
       F (map pview pins) = Some v' ->
       exists s', vn_prop N s pins = Ok s' /\
         (exists p, vn_out N s' pins = Some p /\ pview p = v' /\ pin_ok veqb (vn_shape N) v p) /\
         (exists s'', vn_commit N s' (map still (map pview pins)) = Ok s'' /\ clean (map pview pins) s'') /\
         exists s'', vn_revert N s' (map still ins) = Ok s'' /\ clean ins s'') }.

(** The current shape of an array of static shape [ps]. *)
Definition cur_shape (ps : list Z) (a : list V) : list Z :=
  if dynamic ps then (Z.of_nat (length a) / prod (tl ps))%Z :: tl ps else ps.
(** The selected elements; arrays of fewer than 2^31 elements. *)
Definition view_fun (ps : list Z) (idx : list sidx) (ins : list (list V)) : option (list V) :=
  match ins with
  | [a] => if (Z.of_nat (length a) <? 2147483648)%Z
           then all_some (map (fun o => nth_error a (Z.to_nat o)) (selected (cur_shape ps a) idx))
           else None
  | _ => None
  end.

End VS.
