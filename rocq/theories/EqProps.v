(** C60: comparing symbols. *)
From Verif Require Import Base Num SliceModel BinaryModel StateDataModel BoundsModel NaryModel ReduceModel NodeSpec PyModel PySpec PyProofs EqModel EqSpec EqProofs EqProofs2 EqProofs3.
Local Open Scope nat_scope.

(** Symbols built alike compare equal, given a high enough recursion limit. *)
Theorem C60_alike same m m' x y : alike m m' x y -> exists l k, forall l', l <= l' -> equals same m m' l' x y = Ok (true, k).
Proof. intros A. destruct (alike_yes same m m' x y A) as (l & k & E). exists l, k. intros l' L. exact (equals_mono _ _ _ _ _ _ _ E l' L). Qed.
Print Assumptions C60_alike.
(** So symbols that compare different were not built alike. *)
Theorem C60_different same m m' l x y k : equals same m m' l x y = Ok (false, k) -> ~ alike m m' x y.
Proof. intros E A. destruct (alike_equals same m m' l x y A) as [F|[j F]]; congruence. Qed.
Print Assumptions C60_different.
(** Symbols that compare equal have the same value, if the types and shapes of what they are computed from tell
    operations with different parameters, and decisions, apart. *)
Theorem C60_sound same m m' dv l x y v k : (same = true -> m' = m) -> told_apart same m m' x y ->
  equals same m m' l x y = Ok (true, k) -> yields m dv x v -> yields m' dv y v.
Proof. intros Sm T E Y. exact (equals_sound same m m' dv Sm l x y v k Y T E). Qed.
Print Assumptions C60_sound.
(** Comparing is reflexive, symmetric and, within a model, transitive. *)
Theorem C60_reflexive m l x : x < length (p_syms m) -> equals true m m (S l) x x = Ok (true, 1).
Proof. intros H. destruct (nth_error (p_syms m) x) eqn:E; [|apply nth_error_None in E; lia]. rewrite equals_S, (maybe_refl _ _ _ E). reflexivity. Qed.
Print Assumptions C60_reflexive.
Theorem C60_symmetric same m m' l x y : equals same m m' l x y = equals same m' m l y x.
Proof. apply equals_sym. Qed.
Print Assumptions C60_symmetric.
Theorem C60_transitive m l x y z j k : equals true m m l x y = Ok (true, j) -> equals true m m l y z = Ok (true, k) -> exists i, equals true m m l x z = Ok (true, i).
Proof. apply equals_trans. Qed.
Print Assumptions C60_transitive.
(** It returns, given a high enough recursion limit, if the symbols are computed from finitely many. *)
Theorem C60_returns same m m' x y : finite m x -> finite m' y -> exists l r, forall l', l <= l' -> equals same m m' l' x y = Ok r.
Proof. intros F G. destruct (equals_returns same m m' x F y G) as (l & r & E). exists l, r. intros l' L. exact (equals_mono _ _ _ _ _ _ _ E l' L). Qed.
Print Assumptions C60_returns.

(** [2 * x] made twice, the second time with a constant of its own, meets the hypotheses. *)
Definition ex_two : pym := Pym
  [Sym (KInteger 0 9) [] [2%Z] true; Sym (KConst [zq 2]) [] [] true; Sym (KBin BMul) [0; 1] [2%Z] true; Sym (KConst [zq 2]) [] [] true; Sym (KBin BMul) [0; 3] [2%Z] true] None [].
Example C60_ex dv a b : dv 0 = [a; b] -> told_apart true ex_two ex_two 2 4 /\ alike ex_two ex_two 2 4 /\ finite ex_two 2 /\ equals true ex_two ex_two 2 2 4 = Ok (true, 3) /\ yields ex_two dv 2 [zq 2 * a; zq 2 * b]%Qc.
Proof.
  intros D. split; [|split; [|split; [|split]]].
  - intros i j s t _ _ Hs Ht. do 5 (destruct i as [|i]; [cbn in Hs; injection Hs as <-; do 5 (destruct j as [|j]; [cbn in Ht; injection Ht as <-; cbn; intros; try congruence; (split; [reflexivity|intros; try discriminate; auto])|]); cbn in Ht; destruct j; discriminate Ht|]). cbn in Hs. destruct i; discriminate Hs.
  - eapply al; try reflexivity. cbn. constructor; [eapply al; try reflexivity; constructor|]. constructor; [eapply al; try reflexivity; constructor|constructor].
  - eapply fi; [reflexivity|]. cbn. repeat constructor; (eapply fi; [reflexivity|constructor]).
  - reflexivity.
  - eapply y_op with (ins := [[a; b]; [zq 2]]); [reflexivity|reflexivity| |].
    + cbn. constructor; [|constructor; [|constructor]]; [rewrite <- D; eapply y_dec; reflexivity|eapply y_op with (ins := []); try reflexivity; constructor].
    + cbn. rewrite (Qcmult_comm a), (Qcmult_comm b). reflexivity.
Qed.

(** "Equal symbols represent the same quantity in the model" does not hold: two different decisions, even with
    different bounds, compare equal; *)
Theorem C60_decisions_refuted : exists m x y k dv, (bind (integer [2%Z] 0 5) (fun _ => integer [2%Z] 1 9)) no_model = Ok (y, m) /\
  equals true m m 9 x y = Ok (true, k) /\ exists v w, yields m dv x v /\ yields m dv y w /\ v <> w.
Proof.
  eexists _, 0, _, _, (fun x => match x with O => [zq 0; zq 0] | _ => [zq 1; zq 1] end). split; [reflexivity|]. split; [reflexivity|]. exists [zq 0; zq 0], [zq 1; zq 1].
  split; [refine (y_dec _ _ _ _ _ _); reflexivity|]. split; [refine (y_dec _ _ _ _ _ _); reflexivity|]. discriminate.
Qed.
Print Assumptions C60_decisions_refuted.
(** so do two of the lists that [disjoint_lists] divides the items into, which never share an item; *)
Theorem C60_lists_refuted : exists m main x y, disjoint_lists 3 2 no_model = Ok ((main, [x; y]), m) /\ x <> y /\ exists k, equals true m m 9 x y = Ok (true, k).
Proof. eexists _, _, _, _. split; [reflexivity|]. split; [discriminate|]. eexists. reflexivity. Qed.
Print Assumptions C60_lists_refuted.
(** and different elements of an array, whatever its value; *)
Theorem C60_elements_refuted : exists m x y k, (forall dv a b, dv 0 = [a; b] -> yields m dv x [a] /\ yields m dv y [b]) /\
  bind (integer [2%Z] 0 5) (fun i => bind (getitem i [PInt 0]) (fun _ => getitem i [PInt 1])) no_model = Ok (y, m) /\ equals true m m 9 x y = Ok (true, k).
Proof.
  eexists _, 1, _, _. split; [|split; [vm_compute; reflexivity|vm_compute; reflexivity]]. intros dv a b D.
  split; (eapply y_op with (ins := [[a; b]]); [reflexivity|reflexivity|constructor; [rewrite <- D; eapply y_dec; reflexivity|constructor]|reflexivity]).
Qed.
Print Assumptions C60_elements_refuted.
(** and [A[z, :]] and [A[:, z]], rows and columns of a matrix. *)
Theorem C60_axes_refuted : exists m x y k v w, (forall dv, yields m dv x v /\ yields m dv y w) /\ v <> w /\
  bind (constant [2; 2]%Z [zq 1; zq 2; zq 3; zq 4]) (fun a => bind (constant [2%Z] [zq 1; zq 1]) (fun z => bind (getitem a [PArr z; full]) (fun _ => getitem a [full; PArr z]))) no_model = Ok (y, m) /\
  equals true m m 9 x y = Ok (true, k).
Proof.
  eexists _, 2, _, _, _, _. split; [|split; [|split; [vm_compute; reflexivity|vm_compute; reflexivity]]].
  - intros dv. split; apply (value_yields 3); vm_compute; reflexivity.
  - vm_compute. discriminate.
Qed.
Print Assumptions C60_axes_refuted.
(** "Not equal (with certainty)" does not hold either: [x + c] and [c + x] compare different. *)
Theorem C60_certainty_refuted : exists m x y k, (forall dv a, dv 0 = [a] -> exists v, yields m dv x v /\ yields m dv y v) /\
  bind (integer [1%Z] 0 5) (fun i => bind (constant [1%Z] [zq 3]) (fun c => bind (binop BPlus i c) (fun _ => binop BPlus c i))) no_model = Ok (y, m) /\
  maybe_equals true m m x y = Ok Not /\ equals true m m 9 x y = Ok (false, k).
Proof.
  eexists _, 2, _, _. split; [|split; [vm_compute; reflexivity|split; vm_compute; reflexivity]]. intros dv a D. exists [a + zq 3]%Qc. split.
  - eapply y_op with (ins := [[a]; [zq 3]]); [reflexivity|reflexivity| |reflexivity]. constructor; [rewrite <- D; eapply y_dec; reflexivity|]. constructor; [|constructor]. eapply y_op with (ins := []); [reflexivity|reflexivity|constructor|reflexivity].
  - eapply y_op with (ins := [[zq 3]; [a]]); [reflexivity|reflexivity| |]. + constructor; [|constructor; [rewrite <- D; eapply y_dec; reflexivity|constructor]]. eapply y_op with (ins := []); [reflexivity|reflexivity|constructor|reflexivity].
    + cbn. now rewrite Qcplus_comm.
Qed.
Print Assumptions C60_certainty_refuted.
(** Comparing takes exponentially many calls: more than [2 ^ n] for [n + 1] symbols built alike in two models. *)
Theorem C60_cost n : alike (doubling n) (doubling n) n n /\ length (p_syms (doubling n)) = S n /\ equals false (doubling n) (doubling n) (S n) n n = Ok (true, 2 ^ S n - 1).
Proof. split; [now apply doubling_alike|]. split; [cbn; now rewrite map_length, seq_length|]. now apply doubling_cost. Qed.
Print Assumptions C60_cost.
(** And it fails on models deeper than the recursion limit. *)
Theorem C60_limit_refuted l : exists m m' x y, alike m m' x y /\ finite m x /\ equals false m m' l x y = Throw.
Proof.
  exists (doubling l), (doubling l), l, l. split; [now apply doubling_alike|]. split; [|now apply doubling_limit].
  assert (G : forall n k, k <= n -> finite (doubling n) k); [|now apply G]. induction k as [|k IH]; intros H; [eapply fi; [reflexivity|constructor]|]. eapply fi; [apply doubling_at; lia|]. cbn. repeat constructor; apply IH; lia.
Qed.
Print Assumptions C60_limit_refuted.
