(** C63: model files keep what the symbols stand for. *)
From Verif Require Import Base Num SliceModel ShapeSpec SliceSpec StateDataModel BasicModel BasicSpec BoundsModel NodeSpec GraphModel GraphSpec GraphProofs GraphProofs2
  NaryModel ReduceModel BinaryModel PyModel PySpec PyProofs EqModel FileModel FileSpec FileProofs2 FileProofs3 FileProofs4 FileProofs5 FileProofs6.
From Coq Require Import Permutation Lia.
Local Open Scope Z_scope.

(** A model built with the front end, all of whose views have indices that can be inferred, is written, and reading gives a
    copy: the same symbols in the order of the nodes, the same objective, the same constraints. *)
Theorem C63_read ops m ord : build ops = Ok m -> legal m ord -> views_inferable m ->
  exists f m', into_file false m ord = Ok f /\ from_file f = Ok m' /\ copy m ord (length (p_syms m)) m'.
Proof. intros B L V. apply (round_trip m ord (build_inv _ _ B) L V false). now rewrite (ord_length m ord L). Qed.
Print Assumptions C63_read.
(** With [only_decision], the decisions. *)
Theorem C63_decisions ops m ord : build ops = Ok m -> legal m ord -> views_inferable m ->
  exists f m', into_file true m ord = Ok f /\ from_file f = Ok m' /\ copy m ord (num_decisions m) m' /\
  forall x s i, nth_error (p_syms m) x = Some s -> at_ ord x i -> ((i < num_decisions m)%nat <-> decision_cls (s_cls s) = true).
Proof.
  intros B L V. destruct (round_trip m ord (build_inv _ _ B) L V true (dec_le m ord L)) as (f & m' & E & E' & C). exists f, m'. repeat (split; [assumption|]).
  intros x s i Hx Hi. pose proof (dec_first m ord L x i Hi) as D. unfold dec_at in D. rewrite Hx in D. rewrite D. symmetry. apply Nat.ltb_lt.
Qed.
Print Assumptions C63_decisions.
(** In a copy every symbol has the value of its original, whatever the decisions; so do the objective and the constraints of
    a whole model. *)
Theorem C63_value ops m ord stop m' dv dv' : build ops = Ok m -> legal m ord -> copy m ord stop m' -> (forall x i, at_ ord x i -> dv' i = dv x) ->
  (forall x i v, at_ ord x i -> (i < stop)%nat -> (yields m dv x v <-> yields m' dv' i v)) /\
  (stop = length (p_syms m) -> (forall v, objective m dv v <-> objective m' dv' v) /\ (forall P, feasible_iff m dv P <-> feasible_iff m' dv' P)).
Proof.
  intros B L C D. pose proof (build_inv _ _ B) as I. split; [intros x i v; apply (values_iff m ord L stop m' C dv dv' D)|].
  intros ->. split; [apply (objective_iff m ord I L m' C dv dv' D)|apply (feasible_same m ord I L m' C dv dv' D)].
Qed.
Print Assumptions C63_value.

(** The order that locking the model gives its nodes is legal, whatever happened to the graph before. *)
Theorem C63_order ops m gops g g' : build ops = Ok m -> history gops = Ok g -> gsorted g = false -> graph_of m g -> topological_sort g = Ok g' ->
  legal m (gnodes g').
Proof.
  intros B H U G E. apply (legal_nodes g g' m); auto; [eapply history_WF; eauto|eapply history_level; eauto|now apply (build_inv ops)].
Qed.
Print Assumptions C63_order.

(** Lists, a constant, advanced indices, rows of the constant, a sum built in place of terms that are partly younger than
    it; the size of a list is bounded. *)
Definition ex_ops : list fop := [FLists 4 2; FConst [3; 4] (map zq [0; 1; 2; 3; 4; 5; 6; 7; 8; 9; 10; 11]); FInteger [2] 0 2;
  FGet 3 [PArr 4; PSlice None None None]; FGet 3 [PSlice (Some 1) None None; PSlice None None None]; FNary NAdd [5; 6]%nat; FInteger [2; 4] 0 9;
  FInplace NAdd 7 8; FUn UNegate 8; FInplace NAdd 7 9; FRed RAdd 7; FMinimize 10; FSize 1; FConst [] [zq 2]; FBin BLe 11 12; FConstraint 13].
Definition ex_gops : list gop := [GDecision; GAdd false [0%nat]; GAdd false [0%nat]; GAdd true []; GDecision; GAdd true [3; 4]%nat; GAdd true [3%nat];
  GAdd true [5; 6]%nat; GDecision; GAddEdge 7 8; GAdd true [8%nat]; GAddEdge 7 9; GAdd true [7%nat]; GAdd true [1%nat]; GAdd true []; GAdd true [11; 12]%nat].
Definition ex_ord : list nat := [0; 4; 8; 1; 2; 3; 5; 6; 9; 7; 10; 11; 12; 13]%nat.
Definition ex_m : pym := match build ex_ops with Ok m => m | _ => no_model end.
Definition ex_g : graph := match history ex_gops with Ok g => g | _ => g_empty end.
Lemma ex_build : build ex_ops = Ok ex_m.
Proof. vm_compute. reflexivity. Qed.
Example C63_ex_order : build ex_ops = Ok ex_m /\ history ex_gops = Ok ex_g /\ gsorted ex_g = false /\ graph_of ex_m ex_g /\
  (exists g', topological_sort ex_g = Ok g' /\ gnodes g' = ex_ord) /\ p_obj ex_m = Some 10%nat /\ p_cons ex_m = [13%nat] /\ num_decisions ex_m = 3%nat.
Proof.
  split; [apply ex_build|]. split; [vm_compute; reflexivity|]. split; [reflexivity|]. split.
  - constructor.
    + vm_compute. apply Permutation_refl.
    + intros x s Hx. do 14 (destruct x as [|x]; [vm_compute in Hx; injection Hx as <-; reflexivity|]). exfalso. destruct x; vm_compute in Hx; discriminate.
    + intros x s Hx. change (gdec ex_g) with [0; 4; 8]%nat.
      do 14 (destruct x as [|x]; [vm_compute in Hx; injection Hx as <-; cbn; intuition congruence|]). exfalso. destruct x; vm_compute in Hx; discriminate.
  - split; [eexists; split; vm_compute; reflexivity|]. repeat split; vm_compute; reflexivity.
Qed.
Lemma ex_legal : legal ex_m ex_ord.
Proof. destruct C63_ex_order as (B & H & U & G & (g' & E & <-) & _). exact (C63_order _ _ _ _ _ B H U G E). Qed.
Example C63_ex : build ex_ops = Ok ex_m /\ legal ex_m ex_ord /\ views_inferable ex_m /\
  (exists m', rbind (into_file false ex_m ex_ord) from_file = Ok m' /\ p_obj m' = Some 10%nat /\ p_cons m' = [13%nat] /\
              nth_error (p_syms m') 9 = Some (Sym (KNary NAdd) [6; 7; 2; 8]%nat [2; 4] true)) /\
  (exists m', rbind (into_file true ex_m ex_ord) from_file = Ok m' /\ length (p_syms m') = 3%nat /\ p_obj m' = None).
Proof.
  split; [apply ex_build|]. split; [apply ex_legal|]. split.
  - intros x s ix a t Hx Hc Hp Ht.
    assert (x = 6%nat).
    { do 14 (destruct x as [|x]; [vm_compute in Hx; injection Hx as <-; first [reflexivity|discriminate Hc]|]). exfalso. destruct x; vm_compute in Hx; discriminate. }
    subst x. vm_compute in Hx. injection Hx as <-.
    injection Hc as <-. injection Hp as <-. vm_compute in Ht. injection Ht as <-. split; [discriminate|].
    split; [repeat (constructor; [lia|]); constructor|]. split; [reflexivity|]. split; [repeat constructor|]. repeat (constructor; [vm_compute; discriminate|]); constructor.
  - split; eexists; (split; [vm_compute; reflexivity|]); repeat split.
Qed.

(** One decision and one view of it. *)
Lemma ex_legal2 lo hi ix a b c d o cs : legal (Pym [Sym (KInteger lo hi) [] a b; Sym (KBasic ix) [0%nat] c d] o cs) [0; 1]%nat.
Proof.
  constructor; cbn [p_syms length seq].
  - apply Permutation_refl.
  - intros x s p Hx Hp. destruct x as [|[|x]]; [| |destruct x; discriminate Hx]; injection Hx as <-; [destruct Hp|destruct Hp as [<-|[]]]. exists [], [], []. reflexivity.
  - intros x s y t Hx Hy Hd He. destruct x as [|[|x]]; [| |destruct x; discriminate Hx]; injection Hx as <-; [|discriminate Hd].
    destruct y as [|[|y]]; [| |destruct y; discriminate Hy]; injection Hy as <-; [discriminate He|]. exists [], [], []. reflexivity.
  - intros x s y t main i j Hx _ Hd. destruct x as [|[|x]]; [| |destruct x; discriminate Hx]; injection Hx as <-; discriminate Hd.
Qed.
Definition ex_built (o : list fop) : pym := match build o with Ok m => m | _ => no_model end.
Definition ex_file (m : pym) : file := match into_file false m [0; 1]%nat with Ok f => f | _ => File [] None [] end.
(** Without the condition on views: a file that cannot be read, written from the view [2, 4:] of a 3 by 4 array, *)
Theorem C63_unreadable_refuted : exists ops m ord f, build ops = Ok m /\ legal m ord /\ into_file false m ord = Ok f /\ from_file f = Throw.
Proof.
  set (o := [FInteger [3; 4] 0 1; FGet 0 [PInt 2; PSlice (Some 4) None None]]). exists o, (ex_built o), [0; 1]%nat, (ex_file (ex_built o)).
  split; [vm_compute; reflexivity|]. split; [|split; vm_compute; reflexivity].
  assert (E : exists ix c d, ex_built o = Pym [Sym (KInteger 0 1) [] [3; 4] true; Sym (KBasic ix) [0%nat] c d] None []) by (do 3 eexists; vm_compute; reflexivity).
  destruct E as (ix & c & d & ->). apply ex_legal2.
Qed.
Print Assumptions C63_unreadable_refuted.
(** another shape, from the empty view [1:3, 4:], *)
Theorem C63_shape_refuted : exists ops m ord f m' s t, build ops = Ok m /\ legal m ord /\ into_file false m ord = Ok f /\ from_file f = Ok m' /\
  nth_error (p_syms m) 1 = Some s /\ nth_error (p_syms m') 1 = Some t /\ at_ ord 1 1 /\ s_shape s = [2; 0] /\ s_shape t = [1; 0].
Proof.
  set (o := [FInteger [3; 4] 0 1; FGet 0 [PSlice (Some 1) (Some 3) None; PSlice (Some 4) None None]]).
  assert (E : exists ix, ex_built o = Pym [Sym (KInteger 0 1) [] [3; 4] true; Sym (KBasic ix) [0%nat] [2; 0] true] None []) by (eexists; vm_compute; reflexivity).
  assert (E' : exists ix, from_file (ex_file (ex_built o)) = Ok (Pym [Sym (KInteger 0 1) [] [3; 4] true; Sym (KBasic ix) [0%nat] [1; 0] true] None [])) by (eexists; vm_compute; reflexivity).
  destruct E as (ix & E), E' as (jx & E'). exists o, (ex_built o), [0; 1]%nat, (ex_file (ex_built o)). do 3 eexists.
  split; [vm_compute; reflexivity|]. split; [rewrite E; apply ex_legal2|]. split; [vm_compute; reflexivity|]. split; [exact E'|].
  rewrite E. repeat split; reflexivity.
Qed.
Print Assumptions C63_shape_refuted.
(** and a division by zero while writing a view of an empty array. *)
Theorem C63_empty_refuted : exists ops m ord, build ops = Ok m /\ legal m ord /\ into_file false m ord = UB.
Proof.
  set (o := [FInteger [4; 0] 0 1; FGet 0 [PSlice None None None; PSlice None None None]]). exists o, (ex_built o), [0; 1]%nat.
  split; [vm_compute; reflexivity|]. split; [|vm_compute; reflexivity].
  assert (E : exists ix c d, ex_built o = Pym [Sym (KInteger 0 1) [] [4; 0] true; Sym (KBasic ix) [0%nat] c d] None []) by (do 3 eexists; vm_compute; reflexivity).
  destruct E as (ix & c & d & ->). apply ex_legal2.
Qed.
Print Assumptions C63_empty_refuted.
