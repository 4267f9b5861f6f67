(** C67: models of constrained quadratic models.  Generator modelled in [CqmModel.v]. *)
From Verif Require Import Base Num NarySpec SliceModel NodeSpec ViewModel BinaryModel GraphModel GraphSpec ProposeModel ProposeSpec GenModel GenSpec PyModel PySpec RunModel RunSpec CqmModel CqmSpec CqmProofs2 RunProofs11.
Local Open Scope nat_scope.

(** The model of a constrained quadratic model of binary variables has these variables as its one decision; its objective is the
    objective, and its constraints hold exactly where all constraints do. *)
Theorem C67_cqm c : c_binary c <> [] -> proper_cqm c ->
  exists m, from_cqm c no_model = Ok (Some 0, m) /\ (forall x, In x (decisions m) <-> x = 0) /\ decision m 0 KBinary [Z.of_nat (length (c_binary c))] /\
    forall dv xs, length xs = length (c_binary c) -> Forall bit xs -> dv 0 = xs -> objective m dv (qm_value (c_obj c) xs) /\ feasible_iff m dv (Forall (met xs) (c_cons c)).
Proof. exact (@cqm_model c). Qed.
Print Assumptions C67_cqm.
(** And at all times, whatever was proposed and accepted, the model shows this for the variables' current values. *)
Theorem C67_run strict dbg c : c_binary c <> [] -> proper_cqm c ->
  exists m g obj, from_cqm c no_model = Ok (Some 0, m) /\ history (build m) = Ok g /\ p_obj m = Some obj /\ faithful strict dbg m g /\
    forall st, running strict dbg m g st -> exists xs, length xs = length (c_binary c) /\ Forall bit xs /\
      pin_of (nodes strict dbg m) g st 0 = Some (still xs) /\ pin_of (nodes strict dbg m) g st obj = Some (still [qm_value (c_obj c) xs]) /\
      exists sat, Forall2 (fun k b => pin_of (nodes strict dbg m) g st k = Some (still [b2q b])) (p_cons m) sat /\
        (Forall (fun b => b = true) sat <-> Forall (met xs) (c_cons c)).
Proof. exact (@cqm_run strict dbg c). Qed.
Print Assumptions C67_run.
(** Other variables are refused. *)
Theorem C67_refuses c : In false (c_binary c) -> from_cqm c no_model = Throw.
Proof. exact (@cqm_refuses c). Qed.
Print Assumptions C67_refuses.
(** Without variables the model is empty, whatever the offset of the objective and the constraints. *)
Theorem C67_no_variables c : c_binary c = [] -> from_cqm c no_model = Ok (None, no_model).
Proof. exact (@cqm_empty c). Qed.
Print Assumptions C67_no_variables.
(** So the claim without "at least one variable" fails: here a constraint 1 <= 0 is lost. *)
Definition infeasible := Cqm [] (Dqm [] [] [] 0%Qc) [(Dqm [] [] [] 1%Qc, SLe, 0%Qc)].
Theorem C67_no_variables_refuted : exists c m r, proper_cqm c /\ from_cqm c no_model = Ok (r, m) /\ ~ Forall (met []) (c_cons c) /\ forall dv, feasible_iff m dv True.
Proof.
  exists infeasible, no_model, None. split; [|split; [reflexivity|split]].
  - unfold proper_cqm, proper. cbn. repeat (split || constructor).
  - intros H. inversion H as [|k l H1 _]; subst. vm_compute in H1. exact (H1 eq_refl).
  - intros dv. exists []. split; [constructor|]. split; [intros _; constructor|auto].
Qed.
Print Assumptions C67_no_variables_refuted.

(** Minimize x0 + 2 x2 x0 + 5 subject to x1 - x0 >= 0 and 3 x0 x1 + 4 x1 x1 = 7. *)
Example ex_cqm := Cqm [true; true; true] (Dqm [2; 0] [0; 1]%Qc [(0, 1, zq 2)] (zq 5))
  [(Dqm [1; 0] [1; -(1)]%Qc [] 0%Qc, SGe, 0%Qc); (Dqm [0; 1] [0; 0]%Qc [(0, 1, zq 3); (1, 1, zq 4)] 0%Qc, SEq, zq 7)].
Example C67_ex : proper_cqm ex_cqm /\ qm_value (c_obj ex_cqm) [1; 0; 1]%Qc = zq 8 /\ Forall (met [1; 1; 0]%Qc) (c_cons ex_cqm) /\ ~ Forall (met [1; 0; 1]%Qc) (c_cons ex_cqm).
Proof.
  split; [|split; [|split]].
  - unfold proper_cqm, proper. cbn. repeat split; repeat constructor; cbn; intuition (discriminate || lia).
  - apply Qc_is_canon. reflexivity.
  - constructor; [vm_compute; discriminate|]. constructor; [apply Qc_is_canon; reflexivity|constructor].
  - intros H. inversion H as [|k l H1 _]; subst. vm_compute in H1. exact (H1 eq_refl).
Qed.
Example C67_ex_run : exists m, from_cqm ex_cqm no_model = Ok (Some 0, m).
Proof. eexists. vm_compute. reflexivity. Qed.
Example C67_ex_refuses : from_cqm (Cqm [true; false] (Dqm [] [] [] 0%Qc) []) no_model = Throw.
Proof. apply C67_refuses. cbn. auto. Qed.
(** It starts at zero, where the objective is 5 and the second constraint fails. *)
Definition ex_pym : pym := Eval vm_compute in match from_cqm ex_cqm no_model with Ok (_, m) => m | _ => no_model end.
Definition ex_g : graph := match history (build ex_pym) with Ok g => g | _ => g_empty end.
Definition ex_N := nodes true true ex_pym.
Definition ex_start : states ex_N := match initialize_all ex_N ex_g (fun _ => None) with Ok st => st | _ => fun _ => None end.
Definition ex_shown (st : states ex_N) (x : nat) : list num := match pin_of ex_N ex_g st x with Some p => pview p | None => [] end.
Example C67_ex_start : running true true ex_pym ex_g ex_start /\ ex_shown ex_start 0 = [0; 0; 0]%Qc /\ option_map (ex_shown ex_start) (p_obj ex_pym) = Some [zq 5] /\ map (ex_shown ex_start) (p_cons ex_pym) = [[1]; [0]]%Qc.
Proof.
  split; [|split; [|split]; vm_compute; reflexivity]. apply rn_init with (fun _ => None).
  - intros x s _. destruct (source_cls (s_cls s)); exact I || reflexivity.
  - destruct (C67_run true true ex_cqm) as (m & g & obj & E & Eg & _ & (Hi & _) & _); [discriminate|apply C67_ex|].
    assert (Em : m = ex_pym) by (assert (E2 : from_cqm ex_cqm no_model = Ok (Some 0, ex_pym)) by (vm_compute; reflexivity); rewrite E in E2; now injection E2). subst m. assert (Eg' : g = ex_g) by (unfold ex_g; now rewrite Eg). subst g. destruct (Hi (fun _ => None)) as [st E'].
    + intros x s _. destruct (source_cls (s_cls s)); exact I || reflexivity.
    + unfold ex_start. fold ex_N in E'. now rewrite E'.
Qed.
