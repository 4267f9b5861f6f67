(** C17: proposals on whole models. *)
From Coq Require Import Relations.
From Verif Require Import Base Num SliceModel StateDataModel StateDataSpec ShapeSpec NodeSpec NodeLib NumbersModel NumbersProps CollectionsModel GraphModel GraphSpec GraphProps
  PermModel PermSpec PermProofs PermProps ReduceModel ReduceSpec ReduceProps BinaryModel BinarySpec BinaryProps BasicModel BasicSpec ViewModel ViewSpec ViewProps
  ProposeModel ProposeSpec ProposeProofs2 ProposeProofs3.

Section P.
Context {V : Type} (veqb : V -> V -> bool).
Variables (N : nat -> vnode V) (G : nat -> pin V -> Prop) (F : nat -> list (list V) -> option (list V)).
Variables (start : forall n, vn_ST (N n) -> Prop) (step : forall n, vn_ST (N n) -> vn_ST (N n) -> Prop) (g : graph).

(** The decisions determine the evaluation of a model. *)
Theorem C17_one_evaluation : wf_model veqb N G F start step g -> forall dv v1 v2, evaluation F g dv v1 -> evaluation F g dv v2 ->
  forall n, In n (gnodes g) -> v1 n = v2 n.
Proof. intros W dv v1 v2. exact (eval_unique veqb N G F start step g W dv v1 v2). Qed.

(** Initialising gives every node the value of that evaluation. *)
Theorem C17_initialise : wf_model veqb N G F start step g -> forall st0 dv val, starting N start g st0 dv -> evaluation F g dv val ->
  exists st, initialize_all N g st0 = Ok st /\ shows N g st val.
Proof.
  intros W st0 dv val Hs He. destruct (init_ok veqb N G F start step g W st0 dv val Hs He) as (st & E & Q). exists st. split; [exact E|].
  now apply (quiet_shows veqb N G F start step g W).
Qed.

(** Between proposals every node has the value of an evaluation from scratch and no updates pending. *)
Theorem C17_every_history : wf_model veqb N G F start step g -> forall dbg st, reachable N F start step g dbg st ->
  exists dv val, evaluation F g dv val /\ shows N g st val.
Proof.
  intros W dbg st Hr. destruct (reachable_quiet veqb N G F start step g W dbg st Hr) as (dv & val & He & Q). exists dv, val. split; [exact He|].
  now apply (quiet_shows veqb N G F start step g W).
Qed.

(** A proposal: every call succeeds, assertions included; the acceptance function sees the evaluation for the new
    decision values, and updates leading there from the old values; afterwards every node has the value for the new
    decision values or, if rejected, the value it had before, and no updates pending; and the marks are clear again. *)
Theorem C17_propose : wf_model veqb N G F start step g -> forall dbg st val0 sources st1 dv val1 accept, reachable N F start step g dbg st ->
  shows N g st val0 -> moved N step g sources st st1 -> decided N g st1 dv -> evaluation F g dv val1 ->
  exists mid st2, propose dbg N g (repeat false (length (gnodes g))) sources accept st1 = Ok (repeat false (length (gnodes g)), st2) /\
    (exists ns, descendants g (repeat false (length (gnodes g))) sources = Some (repeat false (length (gnodes g)), ns) /\ propagate_all N g st1 ns = Ok mid) /\
    (forall n, In n (gnodes g) -> exists p, pin_of N g mid n = Some p /\ pview p = val1 n /\ replay veqb (val0 n) (pdiff p) = Some (val1 n)) /\
    shows N g st2 (if accept mid then val1 else val0) /\ reachable N F start step g dbg st2.
Proof.
  intros W dbg st val0 sources st1 dv val1 accept Hr Hs Hm Hd He.
  destruct (reachable_quiet veqb N G F start step g W dbg st Hr) as (dv0 & v0 & He0 & Q0).
  assert (Eq : forall n, In n (gnodes g) -> v0 n = val0 n) by (apply (shows_unique N g st); auto; now apply (quiet_shows veqb N G F start step g W)).
  pose proof (quiet_ext veqb N G F start step g W st v0 val0 Eq Q0) as Q.
  destruct (propose_ok veqb N G F start step g W dbg st val0 sources st1 dv val1 accept Q Hm Hd He) as (mid & st2 & E & A & Q2 & B).
  exists mid, st2. split; [exact E|]. split; [exact B|]. split; [|split].
  - intros n Hn. destruct (A n Hn) as (p & E1 & E2 & E3). exists p. split; [exact E1|]. split; [exact E3|]. rewrite <- E3. apply E2.
  - now apply (quiet_shows veqb N G F start step g W).
  - eapply rc_propose; eauto.
Qed.

(** Accepting a move and initialising from scratch a state with the same decisions give the same values. *)
Theorem C17_as_from_scratch : wf_model veqb N G F start step g -> forall dbg st sources st1 dv val1 marks st2 st0,
  reachable N F start step g dbg st -> moved N step g sources st st1 -> decided N g st1 dv -> evaluation F g dv val1 ->
  propose dbg N g (repeat false (length (gnodes g))) sources (fun _ => true) st1 = Ok (marks, st2) -> starting N start g st0 dv ->
  exists fresh, initialize_all N g st0 = Ok fresh /\ forall n, In n (gnodes g) -> pin_of N g st2 n = pin_of N g fresh n.
Proof.
  intros W dbg st sources st1 dv val1 marks st2 st0 Hr Hm Hd He Hp Hs.
  destruct (C17_every_history W dbg st Hr) as (dv0 & val0 & _ & Hs0).
  destruct (C17_propose W dbg st val0 sources st1 dv val1 (fun _ => true) Hr Hs0 Hm Hd He) as (mid & st2' & E & _ & _ & S2 & _).
  rewrite Hp in E. assert (st2 = st2') by congruence. subst st2'.
  destruct (C17_initialise W st0 dv val1 Hs He) as (fresh & Ef & Sf). exists fresh. split; [exact Ef|]. intros n Hn. now rewrite (S2 n Hn), (Sf n Hn).
Qed.
End P.
Print Assumptions C17_one_evaluation.
Print Assumptions C17_initialise.
Print Assumptions C17_every_history.
Print Assumptions C17_propose.
Print Assumptions C17_as_from_scratch.

(** ** The classes that models are made of *)
(** Every class with one of the contracts of the other properties. *)
Theorem C17_classes : forall (V : Type) (veqb : V -> V -> bool),
  (forall N F Gs, node_ok veqb N F -> computes veqb (lift N) Gs (fun _ => True) F) /\
  (forall N F Gs, vnode_ok veqb N F -> computes veqb N Gs (fun _ => True) F) /\
  (forall shape values, fits shape values -> computes veqb (constant_vnode shape values) [] (fun p => p = still values) (constant_fun values)).
Proof. intros V veqb. split; [|split]; intros; [now apply node_computes|now apply vnode_computes|now apply constant_computes]. Qed.
Print Assumptions C17_classes.

(** A matrix reordered by a list (or by an integer array). *)
Theorem C17_permutation : forall n a, 0 < n -> (8 * Z.of_nat (n ^ 2) < 2147483648)%Z ->
  computes qeqb (lift (perm_node n 2)) [fun p => p = still a; within (whole 0 (Z.of_nat n - 1))] (fun _ => True) (perm_fun n 2).
Proof.
  intros n a Hn Hb. apply (node_if_computes qeqb _ _ _ (perm_moves n)); [|now apply C37_moves].
  intros pins H. inversion H as [|? pa ? l1 Ea H1]; subst. inversion H1 as [|? po ? l2 Eo H2]; subst. inversion H2; subst. destruct Eo as [_ Eo]. split; [reflexivity|].
  eapply Forall_impl; [|exact Eo]. intros u Hu x Hx. destruct (Hu x Hx) as (z & -> & Hz). unfold below. intros Hf.
  assert (Hi : In (Z.to_nat z) (seq 0 n)) by (apply in_seq; lia). apply (find_none _ _ Hf) in Hi. rewrite Z2Nat.id in Hi by lia.
  destruct (qeqb_spec (zq z) (zq z)); congruence.
Qed.
Print Assumptions C17_permutation.

(** Integer and binary arrays; lists and sets. *)
Theorem C17_number : forall n shape, constructed n -> dynamic shape = false -> prod shape = Z.of_nat (isize n) ->
  decides qeqb (number_vnode shape n) (within (whole (ilo n) (ihi n))) (number_start n) (number_move n).
Proof. intros n shape H1 H2 H3. now apply number_decides. Qed.
Print Assumptions C17_number.
Theorem C17_collection : forall mv lo hi n default, collection_node mv lo hi = Some n ->
  decides qeqb (collection_vnode n default) (within (whole 0 (Z.of_nat mv - 1))) (collection_start n) (collection_move n).
Proof.
  intros mv lo hi n default H. assert (E : cmaxval n = mv) by (unfold collection_node in H; destruct (hi <? lo); [discriminate|]; destruct (mv <? hi); [discriminate|]; now injection H as <-).
  rewrite <- E. apply collection_decides. eauto.
Qed.
Print Assumptions C17_collection.

(** A model: a set over 4 items, a list of 3; a constant matrix reordered by the list, its first two rows, their
    sum, plus the sum of the set. *)
Definition ex_build17 : list gop := [GDecision; GDecision; GAdd true []; GAdd true [2; 1]; GAdd true [3]; GAdd true [4]; GAdd true [0]; GAdd true [5; 6]].
Definition ex_ops17 : list gop := ex_build17 ++ [GSort].
Definition ex_u17 : graph := Eval vm_compute in match history ex_build17 with Ok g => g | _ => g_empty end.
Definition ex_g17 : graph := Eval vm_compute in match history ex_ops17 with Ok g => g | _ => g_empty end.
Definition ex_mat : list num := map zq [1; 2; 3; 4; 5; 6; 7; 8; 9]%Z.
Definition ex_set : cnode := CNode 4 0 4.
Definition ex_list : cnode := CNode 3 3 3.
Definition ex_rows : list sidx := [ISlice (Slice 0 2 1); ISlice (Slice 0 SMAX 1)].
Definition ex_view : vnode num := view_node qeqb true [3; 3]%Z (Parsed [2; 3]%Z [24; 8]%Z 0 None) true.
Definition ex_add : node num := array_node 0%Qc [] [[]; []] (bin_init Qcplus [] []) (bin_prop qeqb Qcplus [] []).
Definition ex_N (n : nat) : vnode num :=
  match n with
  | 0 => collection_vnode ex_set (Ok (set_init_default ex_set))
  | 1 => collection_vnode ex_list (Ok (list_init_default ex_list))
  | 2 => constant_vnode [3; 3]%Z ex_mat
  | 3 => lift (perm_node 3 2)
  | 4 => ex_view
  | 5 => lift (red_node RAdd (Some 0%Qc) [2; 3]%Z)
  | 6 => lift (red_node RAdd (Some 0%Qc) [-1]%Z)
  | _ => lift ex_add
  end.
Definition ex_G (n : nat) : pin num -> Prop :=
  match n with
  | 0 => within (whole 0 3) | 1 => within (whole 0 2) | 2 => fun p => p = still ex_mat | _ => fun _ => True
  end.
Definition ex_F (n : nat) : list (list num) -> option (list num) :=
  match n with
  | 2 => constant_fun ex_mat | 3 => perm_fun 3 2 | 4 => view_fun [3; 3]%Z ex_rows | 5 | 6 => red_fun RAdd (Some 0%Qc) | _ => bin_fun Qcplus [] []
  end.
Definition ex_start (n : nat) : vn_ST (ex_N n) -> Prop :=
  match n with 0 => collection_start ex_set | 1 => collection_start ex_list | _ => fun _ => True end.
Definition ex_step (n : nat) : vn_ST (ex_N n) -> vn_ST (ex_N n) -> Prop :=
  match n with 0 => collection_move ex_set | 1 => collection_move ex_list | _ => fun _ _ => False end.

Lemma ex_wf : wf_model qeqb ex_N ex_G ex_F ex_start ex_step ex_g17.
Proof.
  assert (Eh : history ex_ops17 = Ok ex_g17) by (vm_compute; reflexivity).
  split; [exists ex_ops17; exact Eh|]. split; [reflexivity|]. split.
  { assert (Eu : history ex_build17 = Ok ex_u17) by (vm_compute; reflexivity). destruct (C13_creation_order ex_build17 ex_u17 Eu eq_refl) as (g' & _ & A & _). exact A. }
  intros n Hn. assert (Hc : n = 0 \/ n = 1 \/ n = 2 \/ n = 3 \/ n = 4 \/ n = 5 \/ n = 6 \/ n = 7) by (cbn in Hn; intuition auto). clear Hn.
  destruct Hc as [->|[->|[->|[->|[->|[->|[->| ->]]]]]]]; (split; [reflexivity|]); cbn [ex_N ex_G ex_F ex_start ex_step].
  - exact (C17_collection 4 0 4 ex_set _ eq_refl).
  - exact (C17_collection 3 3 3 ex_list _ eq_refl).
  - apply (proj2 (proj2 (C17_classes num qeqb))). reflexivity.
  - apply (C17_permutation 3 ex_mat); [lia|vm_compute; reflexivity].
  - apply (proj1 (proj2 (C17_classes num qeqb))). apply (C36_fixed qeqb qeqb_spec true [3; 3]%Z [24; 8]%Z); [split; [cbn [tl]; repeat first [apply Forall_nil|apply Forall_cons; [lia|]]|split; [vm_compute; reflexivity|cbn; lia]]|reflexivity|cbn; intuition lia|repeat constructor; discriminate|vm_compute; reflexivity|reflexivity].
  - apply (proj1 (C17_classes num qeqb)). apply (C28_reduce_node RAdd None). reflexivity.
  - apply (proj1 (C17_classes num qeqb)). apply (C28_reduce_node RAdd None). reflexivity.
  - apply (proj1 (C17_classes num qeqb)). apply (C25_binary_node num qeqb 0%Qc qeqb_spec Qcplus [] [] []); [split; [constructor|split; [reflexivity|exact I]]|split; [constructor|split; [reflexivity|exact I]]|split; [constructor|split; [reflexivity|exact I]]|reflexivity].
Qed.

(** Initially: the empty set, the list 0 1 2. *)
Definition ex_st0 : states ex_N := fun _ => None.
Definition ex_val0 (n : nat) : list num :=
  match n with
  | 0 => [] | 1 => map zq [0; 1; 2]%Z | 2 => ex_mat | 3 => ex_mat | 4 => map zq [1; 2; 3; 4; 5; 6]%Z | 5 => [zq 21] | 6 => [zq 0] | _ => [zq 21]
  end.
(** Then a move: the set grows by item 0 and item 1, the list becomes 2 1 0. *)
Definition ex_val1 (n : nat) : list num :=
  match n with
  | 0 => map zq [0; 1]%Z | 1 => map zq [2; 1; 0]%Z | 2 => ex_mat | 3 => map zq [9; 8; 7; 6; 5; 4; 3; 2; 1]%Z | 4 => map zq [9; 8; 7; 6; 5; 4]%Z | 5 => [zq 39] | 6 => [zq 1] | _ => [zq 40]
  end.
Ltac ex_cases n Hn := assert (Hc : n = 0 \/ n = 1 \/ n = 2 \/ n = 3 \/ n = 4 \/ n = 5 \/ n = 6 \/ n = 7) by (cbn in Hn; intuition auto); clear Hn;
  destruct Hc as [->|[->|[->|[->|[->|[->|[->| ->]]]]]]].
Lemma ex_eval0 : evaluation ex_F ex_g17 ex_val0 ex_val0.
Proof. intros n Hn. ex_cases n Hn; vm_compute; reflexivity. Qed.
Lemma ex_eval1 : evaluation ex_F ex_g17 ex_val1 ex_val1.
Proof. intros n Hn. ex_cases n Hn; vm_compute; reflexivity. Qed.
Lemma ex_starting : starting ex_N ex_start ex_g17 ex_st0 ex_val0.
Proof.
  intros n Hn. ex_cases n Hn; cbn [is_decision existsb gdec ex_g17 Nat.eqb orb]; try reflexivity.
  - exists (set_init_default ex_set). split; [right; split; reflexivity|]. split; [right; right; reflexivity|reflexivity].
  - exists (list_init_default ex_list). split; [right; split; reflexivity|]. split; [right; left; reflexivity|reflexivity].
Qed.
Definition ex_set1 : cdata num := Eval vm_compute in match c_run ex_set (set_init_default ex_set) [CGrow; CGrow] with Some d => d | None => set_init_default ex_set end.
Definition ex_list1 : cdata num := Eval vm_compute in match c_run ex_list (list_init_default ex_list) [CExchange 0 2] with Some d => d | None => list_init_default ex_list end.
Example C17_example : exists st st1, initialize_all ex_N ex_g17 ex_st0 = Ok st /\ shows ex_N ex_g17 st ex_val0 /\ moved ex_N ex_step ex_g17 [0; 1] st st1 /\ decided ex_N ex_g17 st1 ex_val1 /\
  forall accept, exists mid st2, propose true ex_N ex_g17 (repeat false 8) [0; 1] accept st1 = Ok (repeat false 8, st2) /\ shows ex_N ex_g17 st2 (if accept mid then ex_val1 else ex_val0).
Proof.
  destruct (C17_initialise qeqb ex_N ex_G ex_F ex_start ex_step ex_g17 ex_wf ex_st0 ex_val0 ex_val0 ex_starting ex_eval0) as (st & Ei & Hs).
  assert (R : reachable ex_N ex_F ex_start ex_step ex_g17 true st) by exact (rc_init _ _ _ _ _ _ _ _ _ _ ex_starting ex_eval0 Ei).
  set (st1 := sset ex_N (sset ex_N st 0 ex_set1) 1 ex_list1).
  assert (E0 : st 0 = Some (set_init_default ex_set) /\ st 1 = Some (list_init_default ex_list)) by (split; [apply (f_equal (fun r => match r with Ok s => s 0 | _ => None end)) in Ei|apply (f_equal (fun r => match r with Ok s => s 1 | _ => None end)) in Ei]; rewrite <- Ei; vm_compute; reflexivity).
  assert (Mv : moved ex_N ex_step ex_g17 [0; 1] st st1).
  { split; [repeat constructor; cbn; intuition discriminate|]. split; [intros x Hx; exact Hx|]. intros n. split.
    - intros [<-|[<-|[]]].
      + exists (set_init_default ex_set), ex_set1. split; [apply E0|]. split; [reflexivity|]. cbn [ex_step]. eapply rt_trans; apply rt_step; exists CGrow; (split; [discriminate|split; [discriminate|]]); [reflexivity|vm_compute; reflexivity].
      + exists (list_init_default ex_list), ex_list1. split; [apply E0|]. split; [reflexivity|]. apply rt_step. exists (CExchange 0 2). split; [discriminate|]. split; [discriminate|]. vm_compute. reflexivity.
    - intros Ho. unfold st1. rewrite !ProposeProofs.sset_neq; [reflexivity| |]; intros <-; apply Ho; cbn; auto. }
  assert (Dd : decided ex_N ex_g17 st1 ex_val1).
  { intros d [<-|[<-|[]]]; (eexists; split; [unfold pin_of; cbn [gnodes ex_g17 length pin_at]; reflexivity|reflexivity]). }
  exists st, st1. split; [exact Ei|]. split; [exact Hs|]. split; [exact Mv|]. split; [exact Dd|]. intros accept.
  destruct (C17_propose qeqb ex_N ex_G ex_F ex_start ex_step ex_g17 ex_wf true st ex_val0 [0; 1] st1 ex_val1 ex_val1 accept R Hs Mv Dd ex_eval1) as (mid & st2 & A & _ & _ & B & _). exists mid, st2. auto.
Qed.
(** The same computed. *)
Example C17_example_computed : match initialize_all ex_N ex_g17 ex_st0 with
  | Ok st => match propose true ex_N ex_g17 (repeat false 8) [0; 1] (fun _ => true) (sset ex_N (sset ex_N st 0 ex_set1) 1 ex_list1) with
             | Ok (_, st2) => map (pin_of ex_N ex_g17 st2) [0; 1; 5; 6; 7] = map (fun n => Some (still (ex_val1 n))) [0; 1; 5; 6; 7]
             | _ => False end
  | _ => False end.
Proof. vm_compute. reflexivity. Qed.
