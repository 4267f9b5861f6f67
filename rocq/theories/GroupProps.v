(** C65: disjoint lists and disjoint bit-sets, and their parts, in whole models. *)
From Coq Require Import Relations.
From Verif Require Import Base Num SliceModel ShapeModel StateDataModel StateDataSpec NodeSpec ViewModel ReduceModel BoundsModel CollectionsModel DisjointModel DisjointSpec GraphModel GraphSpec ProposeModel ProposeSpec ProposeProofs
  GroupModel GroupSpec GroupProofs GroupProofs2 GroupProofs3 PyModel PySpec GenSpec PyProofs PyValues PyRules RunModel RunSpec RunProofs RunProofs2 RunProofs3 RunProofs4 RunProps.
Local Open Scope Z_scope.

(** Disjoint lists obey the contract of a decision: from any state they may start from and by any moves since the last
    commit the logs lead from what was committed to what is there, both partitions of the items; commit and revert end with
    empty logs; and the assertions of [propagate] hold. *)
Theorem C65_lists dbg n k : (0 < k)%nat ->
  ProposeSpec.decides qeqb (lists_vnode dbg n k) (group_ok (fun ls => list_partition n ls /\ length ls = k) (whole 0 (Z.of_nat n - 1)) false) (lists_start n k) lists_move.
Proof. intros H. exact (@lists_decides n k H dbg). Qed.
Print Assumptions C65_lists.
(** Likewise bit-sets, whose logs only hold changes. *)
Theorem C65_bits n k : (0 < k)%nat ->
  ProposeSpec.decides qeqb (bits_vnode n k) (group_ok (bits_partition n k) (whole 0 1) true) (bits_start n k) (bits_move n).
Proof. intros H. exact (@bits_decides n k H). Qed.
Print Assumptions C65_bits.
(** A part obeys the contract of an array computed from its parent: of any length, or of a fixed length [n]. *)
Theorem C65_list_part good lo hi i : computes qeqb (part_vnode [-1] i) [group_ok good (whole lo hi) false] (within (whole lo hi)) (part_fun None lo hi i).
Proof. exact (part_computes good None lo hi i). Qed.
Print Assumptions C65_list_part.
Theorem C65_bit_part good n lo hi i : computes qeqb (part_vnode [Z.of_nat n] i) [group_ok good (whole lo hi) true] (within (whole lo hi)) (part_fun (Some n) lo hi i).
Proof. exact (part_computes good (Some n) lo hi i). Qed.
Print Assumptions C65_bit_part.

(** In a whole model the parts hold, between proposals, every item exactly once. *)
Theorem C65_lists_run strict dbg m g st x s n k : all_sound strict dbg m -> RunSpec.total m -> locked m g -> running strict dbg m g st ->
  nth_error (p_syms m) x = Some s -> s_cls s = KLists n k ->
  exists ls, list_partition (Z.to_nat n) ls /\ length ls = k /\ forall y i, option_map s_cls (nth_error (p_syms m) y) = Some (KListOf x n k i) ->
    exists v, nth_error ls i = Some v /\ pin_of (nodes strict dbg m) g st y = Some (still v).
Proof.
  intros H1 H2 H3 Hr E Ec. destruct (C58_run _ _ _ _ H1 H2 H3) as (_ & Fa & _). destruct (Fa st Hr) as (dv & Hd & Sh). pose proof (proj2 (Hd x s E)) as Hs. rewrite Ec in Hs. destruct Hs as (ls & P & L & Hp).
  exists ls. split; [exact P|]. split; [exact L|]. intros y i Hy. exists (dv y). split; [now apply Hp|]. destruct (nth_error (p_syms m) y) as [t|] eqn:Et; [|discriminate]. cbn in Hy. injection Hy as Hy.
  apply (shown_value Sh). apply y_dec with t; [exact Et|]. now rewrite Hy.
Qed.
Print Assumptions C65_lists_run.
(** Every item is in exactly one bit-set. *)
Theorem C65_bits_run strict dbg m g st x s n k : all_sound strict dbg m -> RunSpec.total m -> locked m g -> running strict dbg m g st ->
  nth_error (p_syms m) x = Some s -> s_cls s = KBits n k ->
  exists owner, length owner = Z.to_nat n /\ Forall (fun j => (j < k)%nat) owner /\ forall y i, option_map s_cls (nth_error (p_syms m) y) = Some (KBitOf x n k i) ->
    pin_of (nodes strict dbg m) g st y = Some (still (map (fun j => zq (if (j =? i)%nat then 1 else 0)) owner)).
Proof.
  intros H1 H2 H3 Hr E Ec. destruct (C58_run _ _ _ _ H1 H2 H3) as (_ & Fa & _). destruct (Fa st Hr) as (dv & Hd & Sh). pose proof (proj2 (Hd x s E)) as Hs. rewrite Ec in Hs. destruct Hs as (rows & (owner & L & Hk & ->) & Hp).
  exists owner. split; [exact L|]. split; [exact Hk|]. intros y i Hy. pose proof (Hp y i Hy) as Hv. destruct (nth_error (p_syms m) y) as [t|] eqn:Et; [|discriminate]. cbn in Hy. injection Hy as Hy.
  rewrite nth_error_map in Hv. destruct (nth_error (seq 0 k) i) as [j|] eqn:Ej; [|discriminate]. cbn in Hv. injection Hv as Hv.
  assert (j = i) by (assert (i < k)%nat by (rewrite <- (seq_length k 0); apply nth_error_Some; congruence); apply nth_error_nth with (d := 0%nat) in Ej; rewrite seq_nth in Ej by assumption; lia). subst j.
  apply (shown_value Sh). change (map (fun j => zq (if (j =? i)%nat then 1 else 0)) owner) with (indicator owner i). rewrite Hv. apply y_dec with t; [exact Et|]. now rewrite Hy.
Qed.
Print Assumptions C65_bits_run.

(** A run: three items in two lists; the sum of the first times the size of the second. *)
Definition ex_prog : py (nat * list nat) :=
  do (main, parts) <- disjoint_lists 3 2 ; do a <- red RAdd (nth 0 parts 0%nat) ; do b <- size (nth 1 parts 0%nat) ;
  match b with inr b => do c <- binop BMul a b ; do _ <- minimize c ; ret (main, parts) | inl _ => raise end.
Definition ex_m : pym :=
  Pym [Sym (KLists 3 2) [] [-1] true; Sym (KListOf 0 3 2 0) [0%nat] [-1] true; Sym (KListOf 0 3 2 1) [0%nat] [-1] true;
       Sym (KRed RAdd) [1%nat] [] true; Sym KSize [2%nat] [] true; Sym (KBin BMul) [3%nat; 4%nat] [] true] (Some 5%nat) [].
Definition ex_g : graph := match history (build ex_m) with Ok g => g | _ => g_empty end.
Definition ex_N := nodes true true ex_m.
Definition ex_start : states ex_N := match initialize_all ex_N ex_g (fun _ => None) with Ok st => st | _ => fun _ => None end.
Definition ex_shown (st : states ex_N) (x : nat) : list num := match pin_of ex_N ex_g st x with Some p => pview p | None => [] end.
Example C65_ex_model : ex_prog no_model = Ok ((0%nat, [1; 2]%nat), ex_m).
Proof. reflexivity. Qed.
Example C65_ex_hyps : all_sound true true ex_m /\ RunSpec.total ex_m /\ locked ex_m ex_g.
Proof.
  split; [|split].
  - repeat constructor; cbn; try lia; try discriminate; eauto.
  - intros dv _. apply (@cover_total ex_m [5%nat]); [reflexivity|]. intros x [<-|[]].
    assert (Y3 : exists v, yields ex_m dv 3 [v]) by (eexists; apply y_op with (Sym (KRed RAdd) [1%nat] [] true) [dv 1%nat]; [reflexivity|reflexivity| |reflexivity]; constructor; [eapply y_dec; reflexivity|constructor]).
    assert (Y4 : exists v, yields ex_m dv 4 [v]) by (eexists; apply y_op with (Sym KSize [2%nat] [] true) [dv 2%nat]; [reflexivity|reflexivity| |reflexivity]; constructor; [eapply y_dec; reflexivity|constructor]).
    destruct Y3 as [a Y3]. destruct Y4 as [b Y4]. exists [(a * b)%Qc]. apply y_op with (Sym (KBin BMul) [3; 4]%nat [] true) [[a]; [b]]; [reflexivity|reflexivity| |reflexivity].
    constructor; [exact Y3|]. constructor; [exact Y4|constructor].
  - destruct (C58_graph ex_m) as (g & E & L); [apply orderb_ok; reflexivity|]. unfold ex_g. now rewrite E.
Qed.
Example C65_ex_start : running true true ex_m ex_g ex_start /\ map (ex_shown ex_start) [1; 2; 5]%nat = [map zq [0; 1; 2]; []; [zq 0]].
Proof.
  split; [|vm_compute; reflexivity]. apply rn_init with (fun _ => None).
  - intros x s _. destruct (source_cls (s_cls s)); exact I || reflexivity.
  - destruct C65_ex_hyps as (H1 & H2 & H3). destruct (C58_run _ _ _ _ H1 H2 H3) as (Hi & _). destruct (Hi (fun _ => None)) as [st E].
    + intros x s _. destruct (source_cls (s_cls s)); exact I || reflexivity.
    + unfold ex_start. fold ex_N in E. now rewrite E.
Qed.
(** The item in front of the first list is moved to the second. *)
Definition ex_pop (d : vn_ST (ex_N 0)) : option (vn_ST (ex_N 0)) := dl_step d (DPop 0 0 1 0).
Definition ex_moved : states ex_N := match ex_start 0%nat with Some d => match ex_pop d with Some d' => sset ex_N ex_start 0 d' | None => ex_start end | None => ex_start end.
Definition ex_after (yes : bool) : states ex_N := match propose true ex_N ex_g (repeat false 6) [0%nat] (fun _ => yes) ex_moved with Ok (_, st) => st | _ => ex_start end.
Example C65_ex_changes : changes true true ex_m ex_g [0%nat] ex_start ex_moved.
Proof.
  split; [constructor; [intros []|constructor]|]. split; [intros x [<-|[]]; vm_compute; auto|]. intros x. split.
  - intros [<-|[]]. destruct (ex_start 0%nat) as [d|] eqn:E; [|vm_compute in E; discriminate]. destruct (ex_pop d) as [d'|] eqn:E'.
    + exists d, d'. split; [reflexivity|]. split; [unfold ex_moved; rewrite E, E'; apply sset_eq|]. apply rt_step. exists (DPop 0 0 1 0). split; [exact I|exact E'].
    + exfalso. vm_compute in E. injection E as <-. vm_compute in E'. discriminate.
  - intros Hx. unfold ex_moved. destruct (ex_start 0%nat) as [d|]; [|reflexivity]. destruct (ex_pop d) as [d'|]; [|reflexivity]. apply sset_neq. intros E. apply Hx. left. congruence.
Qed.
Example C65_ex_run : map (ex_shown ex_moved) [1; 2]%nat = [map zq [1; 2]; [zq 0]] /\ map (ex_shown (ex_after true)) [1; 2; 5]%nat = [map zq [1; 2]; [zq 0]; [zq 3]] /\
  map (ex_shown (ex_after false)) [1; 2; 5]%nat = [map zq [0; 1; 2]; []; [zq 0]].
Proof. repeat split; vm_compute; reflexivity. Qed.
