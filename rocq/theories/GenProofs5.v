(** Flow shop scheduling: what the generator's model computes. *)
From Verif Require Import Base Num SliceModel ShapeModel ShapeSpec SliceSpec StateDataModel NodeSpec BinaryModel BasicModel BasicSpec ViewModel ElemModel NaryModel
  ReduceModel BoundsModel PermModel AdvModel NarySpec ReduceSpec BinarySpec ElemSpec PermSpec ViewSpec AdvSpec ProposeSpec PyModel GenModel PySpec GenSpec PyProofs PyValues PyRules GenProofs GenProofs2 GenProofs4.
Set Implicit Arguments.

(** * Values known once a node that still changes has its final value *)
Section Late.
Variables (dv : nat -> list num) (B : nat -> Prop) (N : nat) (t : num).
Definition late (m : pym) (x : nat) (v : num) : Prop :=
  (exists s, nth_error (p_syms m) x = Some s /\ s_shape s = []) /\ forall m', keeps B m m' -> yields m' dv N [t] -> yields m' dv x [v].
Lemma late_keeps m m' x v : keeps B m m' -> late m x v -> late m' x v.
Proof.
  intros K [(s & Hs & Es) H]. split.
  - destruct (kp_shape K _ Hs) as (s' & Hs' & E). exists s'. split; [exact Hs'|congruence].
  - intros m2 K2. apply H. exact (keeps_trans K K2).
Qed.
Lemma late_fact m x c ct v : fact B m dv x c [] ct [v] -> late m x v.
Proof.
  intros F. split.
  - destruct F as [[ps E] _]. eexists. split; [exact E|reflexivity].
  - intros m' K _. apply (fact_keeps K) in F. exact (fact_yields F).
Qed.
Lemma late_self m s : nth_error (p_syms m) N = Some s -> s_shape s = [] -> late m N t.
Proof. intros E H. split; [eauto|]. auto. Qed.
Lemma late_emit m o x y a b (c : cls) :
  open_ B m -> late m x a -> late m y b -> decided_cls c = false -> meaning c [[]; []] [[a]; [b]] = Some [o] ->
  let m' := Pym (p_syms m ++ [Sym c [x; y] [] true]) (p_obj m) (p_cons m) in
  steps B m m' /\ late m' (length (p_syms m)) o.
Proof.
  intros Ho La Lb Hc Hm m'. assert (K : keeps B m m') by apply keeps_app.
  assert (E : nth_error (p_syms m') (length (p_syms m)) = Some (Sym c [x; y] [] true)) by (cbn; rewrite nth_error_app2, Nat.sub_diag by lia; reflexivity).
  assert (Hn : ~ B (length (p_syms m))) by (apply Ho; lia).
  split.
  - split; [exact K|]. split; [reflexivity|]. split; [reflexivity|]. intros z Hz. apply Ho. cbn in Hz. rewrite app_length in Hz. lia.
  - split; [eexists; split; [exact E|reflexivity]|]. intros m2 K2 HN.
    pose proof (keeps_trans K K2) as K3. destruct La as [(sx & Hx & Ex) La], Lb as [(sy & Hy & Ey) Lb].
    apply y_op with (Sym c [x; y] [] true) [[a]; [b]]; [now apply (kp_same K2)|exact Hc| |].
    + constructor; [now apply La|]. constructor; [now apply Lb|constructor].
    + cbn [s_cls s_pred shapes_of map]. rewrite (shape_at_keeps x K3 Hx), (shape_at_keeps y K3 Hy). unfold shapes_of. cbn [map].
      unfold shape_at. rewrite Hx, Hy, Ex, Ey. exact Hm.
Qed.
Definition more (m m' : pym) : Prop := exists l, p_syms m' = p_syms m ++ l.
Lemma more_trans m1 m2 m3 : more m1 m2 -> more m2 m3 -> more m1 m3.
Proof. intros [l1 H1] [l2 H2]. exists (l1 ++ l2). now rewrite H2, H1, app_assoc. Qed.
Lemma more_refl m : more m m. Proof. exists []. now rewrite app_nil_r. Qed.
Lemma runs_late_max x y a b m (Q : nat -> pym -> Prop) :
  open_ B m -> late m x a -> late m y b ->
  (forall z m', steps B m m' -> more m m' -> late m' z (qmax a b) -> (exists ps, nth_error (p_syms m') z = Some (Sym (KBin BMax) ps [] true)) -> Q z m') ->
  runs (several BMax NMax [x; y]) m Q.
Proof.
  intros Ho La Lb HQ. cbn [several]. unfold binop. pose proof La as [(sx & Hx & Ex) _]. pose proof Lb as [(sy & Hy & Ey) _].
  apply runs_bind. eapply runs_look; [exact Hx|]. apply runs_bind. eapply runs_look; [exact Hy|]. rewrite Ex, Ey.
  apply runs_bind. eapply runs_lift; [reflexivity|]. unfold emit. eexists _, _. split; [reflexivity|].
  destruct (@late_emit m (qmax a b) x y a b (KBin BMax) Ho La Lb eq_refl eq_refl) as [S L].
  apply HQ; [exact S|now eexists|exact L|]. eexists. cbn [p_syms]. rewrite nth_error_app2, Nat.sub_diag by lia. reflexivity.
Qed.
Lemma runs_late_iadd x y a b c ps m (Q : nat -> pym -> Prop) :
  open_ B m -> late m x a -> nth_error (p_syms m) x = Some (Sym c ps [] true) -> same_nop NAdd c = false -> late m y b ->
  (forall m', steps B m m' -> more m m' -> late m' (length (p_syms m)) (a + b)%Qc ->
     nth_error (p_syms m') (length (p_syms m)) = Some (Sym (KNary NAdd) [x; y] [] true) -> Q (length (p_syms m)) m') ->
  runs (iadd x y) m Q.
Proof.
  intros Ho La Hx Hc Lb HQ. unfold iadd, inplace. pose proof Lb as [(sy & Hy & Ey) _].
  apply runs_bind. eapply runs_look; [exact Hx|]. cbn [s_cls]. rewrite Hc. unfold nary. apply runs_bind. cbn [looks].
  apply runs_bind. eapply runs_look; [exact Hx|]. apply runs_bind. apply runs_bind. eapply runs_look; [exact Hy|]. apply runs_bind. apply runs_ret. apply runs_ret.
  apply runs_ret. apply runs_bind. cbn [map s_shape]. rewrite Ey. eapply runs_lift; [reflexivity|]. unfold emit. eexists _, _. split; [reflexivity|].
  destruct (@late_emit m (a + b)%Qc x y a b (KNary NAdd) Ho La Lb eq_refl) as [S L].
  { pose proof (@nary_sum [a; b] ltac:(discriminate)) as HN. cbn [length map qsum_of] in HN. rewrite Qcplus_0_r in HN. exact HN. }
  apply HQ; [exact S|now eexists|exact L|]. cbn [p_syms]. rewrite nth_error_app2, Nat.sub_diag by lia. reflexivity.
Qed.
End Late.

Lemma appends_op times order i j : appends (op times order i j).
Proof. unfold op. apply appends_bind; [apply appends_getitem|]. intros r. apply appends_bind; [apply appends_getitem|]. intros z. apply appends_getitem. Qed.

Lemma skipn_nth {A} (d : A) j l : j < length l -> skipn j l = nth j l d :: skipn (S j) l.
Proof. revert l; induction j as [|j IH]; intros [|a l] H; cbn in H; try lia; [reflexivity|]. cbn [skipn nth]. rewrite IH by lia. reflexivity. Qed.

Lemma Forall2_last {A C} (R : A -> C -> Prop) l l' d d' : Forall2 R l l' -> l <> [] -> R (last l d) (last l' d').
Proof.
  induction 1 as [|a b l l' Hab H IH]; [congruence|]. intros _. destruct H as [|a2 b2 l2 l2' H2 H]; [exact Hab|]. apply IH. discriminate.
Qed.
Lemma map_nth_seq {A} (l : list A) d : map (fun i => nth i l d) (seq 0 (length l)) = l.
Proof.
  induction l as [|a l IH]; [reflexivity|]. cbn [length seq map nth]. f_equal. rewrite <- seq_shift, map_map. exact IH.
Qed.
Lemma Forall2_len {A C} (R : A -> C -> Prop) l l' : Forall2 R l l' -> length l = length l'.
Proof. induction 1; cbn; congruence. Qed.
Lemma hd_rev {A} (l : list A) x d : hd_error (rev (x :: l)) = Some (last (x :: l) d).
Proof.
  rewrite (app_removelast_last (l := x :: l) d) at 1 by discriminate. now rewrite rev_app_distr.
Qed.
Lemma machine_length v a b : length a = length b -> length (machine v a b) = length a.
Proof. revert v b; induction a as [|x a IH]; intros v [|y b] E; cbn in *; try discriminate; [reflexivity|]. f_equal. apply IH. congruence. Qed.

(** * The generator *)
Section Flow.
Variables (P : list (list num)) (order : list nat) (dv : nat -> list num) (M J : nat).
Hypothesis HP : matrix M J P.
Hypothesis HM : 1 <= M.
Hypothesis HJ : 1 <= J.
Hypothesis Hs : (Z.of_nat (M * J) < 2147483648)%Z.
Hypothesis HP0 : Forall nonnegative P.
Hypothesis Ho : length order = J.
Hypothesis Hlt : Forall (fun j => j < J) order.
Hypothesis Hdv : dv 1 = numbers order.

Lemma runs_op B tm i j m (Q : nat -> pym -> Prop) :
  open_ B m -> fact B m dv tm (KConst (concat P)) [Z.of_nat M; Z.of_nat J] true (concat P) -> fact B m dv 1 KList [Z.of_nat J] true (numbers order) ->
  i < M -> j < J ->
  (forall z m', steps B m m' -> more m m' -> fact B m' dv z (KAdv [true]) [] true [entry P i (nth j order 0)] -> Q z m') ->
  runs (op tm 1 i j) m Q.
Proof.
  intros Hop Ft Fo Hi Hj HQ.
  assert (G : runs (op tm 1 i j) m (fun z m' => steps B m m' /\ fact B m' dv z (KAdv [true]) [] true [entry P i (nth j order 0)])).
  { unfold op. assert (Hrow : length (nth i P []) = J) by (destruct HP as [H1 H2]; apply nth_row; [exact H2|lia]).
    apply runs_bind. pose proof Ft as [[pt Et] _]. eapply runs_getitem; [exact Et|exact I|]. unfold full.
    eapply runs_array_getitem_basic; [exact Ft|reflexivity|]. cbn [length Nat.sub repeat app].
    eapply runs_row with (a := None) (b := None); [exact Hop|exact Ft|exact I|exact HP|nia|exact Hi|exact HJ|].
    intros r m1 c1 S1 w F1. subst w. cbn [value_or] in F1. rewrite cut_all in F1 by (rewrite Hrow; unfold SMAX; nia). advance S1.
    assert (Hsm : small (numbers order)) by (unfold small; rewrite numbers_length, Ho; nia).
    replace (Z.of_nat J) with (Z.of_nat (length (numbers order))) in Fo by (now rewrite numbers_length, Ho).
    apply runs_bind. eapply runs_int; [exact O|exact Fo|exact I|exact Hsm|rewrite numbers_length; lia|]. intros y m2 c2 S2 F2. advance S2.
    assert (E2 : [nth (Z.to_nat (py_norm (Z.of_nat (length (numbers order))) (Z.of_nat j))) (numbers order) 0%Qc] = numbers [nth j order 0]).
    { unfold py_norm. destruct (Z.ltb_spec (Z.of_nat j) 0); [lia|]. rewrite Nat2Z.id.
      rewrite (nth_error_nth _ _ _ (numbers_nth order (j := j) ltac:(lia))). reflexivity. }
    rewrite E2 in F2. eapply runs_gather_item; [exact O|exact F1|exact I|exact F2|cbn; lia| |].
    { constructor; [|constructor]. rewrite Hrow. apply Forall_nth_lt; [exact Hlt|lia]. }
    intros z m3 S3 F3. split; [exact (steps_trans S1 (steps_trans S2 S3))|exact F3]. }
  apply (runs_appends (appends_op tm 1 i j)) in G. revert G. apply runs_mono. intros z m' (A & S & F). now apply HQ.
Qed.

(** The first machine. *)
Definition work (i : nat) : list num := map (fun j => nth j (nth i P []) 0%Qc) order.
Lemma work_length i : length (work i) = J. Proof. unfold work. now rewrite map_length. Qed.
Lemma work_nth i j : j < J -> nth j (work i) 0%Qc = entry P i (nth j order 0).
Proof. intros H. unfold work, entry. now rewrite (@nth_map_lt _ _ _ _ j _ 0) by lia. Qed.
Lemma work_nonneg i : nonnegative (work i).
Proof.
  unfold nonnegative, work. rewrite Forall_map. apply Forall_forall. intros j _. destruct (Nat.lt_ge_cases i (length P)) as [Hi|Hi].
  - pose proof (proj1 (Forall_forall _ _) HP0 _ (nth_In P [] Hi)) as H0. unfold nonnegative in H0. rewrite Forall_forall in H0.
    destruct (Nat.lt_ge_cases j (length (nth i P []))) as [H|H]; [apply H0; now apply nth_In|]. rewrite nth_overflow by lia. apply Qcle_refl.
  - rewrite (nth_overflow P) by lia. rewrite nth_overflow by (cbn; lia). apply Qcle_refl.
Qed.

Definition knows (B : nat -> Prop) (m : pym) (x : nat) (v : num) : Prop := exists c ct, fact B m dv x c [] ct [v].
Lemma knows_keeps B m m' x v : keeps B m m' -> knows B m x v -> knows B m' x v.
Proof. intros K (c & ct & F). exists c, ct. now apply (fact_keeps K). Qed.
Lemma first_rest tm : forall n j last acc v m (Q : list nat -> pym -> Prop),
  j + n = J -> open_ nobody m -> fact nobody m dv tm (KConst (concat P)) [Z.of_nat M; Z.of_nat J] true (concat P) -> fact nobody m dv 1 KList [Z.of_nat J] true (numbers order) ->
  knows nobody m last v -> (0 <= v)%Qc ->
  (forall zs m', steps nobody m m' -> Forall2 (knows nobody m') zs (machine v (repeat 0%Qc n) (skipn j (work 0))) -> Q (rev zs ++ last :: acc) m') ->
  runs (pfor (seq j n) (fun ends j => match ends with
    | [] => do t <- op tm 1 0 j ; ret [t]
    | last :: _ => do t <- op tm 1 0 j ; do e <- iadd t last ; ret (e :: ends)
    end) (last :: acc)) m Q.
Proof.
  induction n as [|n IH]; intros j lst acc v m Q Hjn Hop Ft Fo Kl Hv HQ; cbn [seq pfor].
  - apply runs_ret. apply (HQ []); [now apply steps_refl|]. cbn. constructor.
  - apply runs_bind. apply runs_bind. eapply runs_op; [exact Hop|exact Ft|exact Fo|lia|lia|]. intros z m1 S1 _ F1. advance S1.
    apply (knows_keeps (steps_keeps S1)) in Kl. pose proof Kl as (cl & ctl & Fl). set (w := entry P 0 (nth j order 0)) in *.
    apply runs_bind. pose proof F1 as [[pz Ez] _].
    unfold iadd, inplace. apply runs_bind. eapply runs_look; [exact Ez|]. cbn [s_cls same_nop].
    eapply runs_nary with (B := nobody) (dv := dv) (vs := [[w]; [v]]) (shs := [[]; []]) (sh := []) (w := [(v + w)%Qc]); [exact O| | |reflexivity| |].
    { constructor; [now destruct F1 as [_ [_ Y]]|]. constructor; [now destruct Fl as [_ [_ Y]]|constructor]. }
    { cbn [map]. now rewrite (fact_shape F1), (fact_shape Fl). }
    { pose proof (@nary_sum [w; v] ltac:(discriminate)) as HN. cbn [length map qsum_of] in HN. rewrite Qcplus_0_r, Qcplus_comm in HN. exact HN. }
    intros e m2 S2 F2. advance S2. apply runs_ret.
    assert (Hw : (0 <= w)%Qc).
    { pose proof (work_nonneg 0) as W. unfold nonnegative in W. rewrite Forall_forall in W. apply W. unfold w. rewrite <- work_nth by lia. apply nth_In. rewrite work_length. lia. }
    assert (Hvw : (0 <= v + w)%Qc) by (revert Hv Hw; generalize v w; intros; qlra).
    assert (Esk : skipn j (work 0) = w :: skipn (S j) (work 0)).
    { unfold w. rewrite <- work_nth by lia. apply skipn_nth. rewrite work_length. lia. }
    eapply IH with (j := S j) (v := (v + w)%Qc); [lia|exact O|exact Ft|exact Fo|exists (KNary NAdd), true; exact F2|exact Hvw|].
    intros zs m3 S3 HF. specialize (HQ (e :: zs) m3). cbn [rev] in HQ. rewrite <- app_assoc in HQ. cbn [app] in HQ. apply HQ.
    + exact (steps_trans S1 (steps_trans S2 S3)).
    + rewrite Esk. cbn [repeat machine]. assert (Em : (qmax 0 v + w = v + w)%Qc) by (unfold qmax; destruct (qltb_spec 0%Qc v) as [|Hn]; [reflexivity|];
        assert (v = 0%Qc) as -> by (apply Qcle_antisym; [now apply Qcnot_lt_le|exact Hv]); reflexivity).
      cbv zeta. rewrite Em. constructor; [|exact HF]. apply (knows_keeps (steps_keeps S3)). exists (KNary NAdd), true. exact F2.
Qed.

(** The jobs but the first on another machine. *)
Lemma next_rest B N t tm i : i < M -> forall rest pv j lst acc v m (Q : list nat -> pym -> Prop),
  j + length rest = J -> open_ B m -> fact B m dv tm (KConst (concat P)) [Z.of_nat M; Z.of_nat J] true (concat P) -> fact B m dv 1 KList [Z.of_nat J] true (numbers order) ->
  late dv B N t m lst v -> Forall2 (late dv B N t m) rest pv ->
  (forall zs m', steps B m m' -> more m m' -> Forall2 (late dv B N t m') zs (machine v pv (skipn j (work i))) -> Q (rev zs ++ lst :: acc) m') ->
  runs (pfor (combine (seq j (length rest)) rest) (fun ends jp =>
    let '(j, p) := jp in
    match ends with
    | [] => do t <- op tm 1 i j ; do e <- iadd p t ; ret [e]
    | last :: _ => do x <- several BMax NMax [p; last] ; do t <- op tm 1 i j ; do e <- iadd x t ; ret (e :: ends)
    end) (lst :: acc)) m Q.
Proof.
  intros Hi. induction rest as [|p rest IH]; intros pv j lst acc v m Q Hjn Hop Ft Fo Ll Lr HQ; cbn [length seq combine pfor].
  - apply runs_ret. apply (HQ []); [now apply steps_refl|apply more_refl|]. inversion Lr. cbn. constructor.
  - inversion Lr as [|p' a l pv' La Lr']; subst p' l pv. cbn [length] in Hjn. apply runs_bind.
    apply runs_bind. eapply runs_late_max; [exact Hop|exact La|exact Ll|]. intros x m1 S1 A1 Lx [px Ex]. advance S1.
    apply runs_bind. eapply runs_op; [exact O|exact Ft|exact Fo|exact Hi|lia|]. intros z m2 S2 A2 Fz. advance S2.
    apply (late_keeps (steps_keeps S2)) in Lx. apply (@appended_nth _ _ _ _ A2) in Ex.
    apply runs_bind. eapply runs_late_iadd; [exact O|exact Lx|exact Ex|reflexivity|eapply late_fact; exact Fz|]. intros m3 S3 A3 Le _. advance S3.
    apply runs_ret. set (e := length (p_syms m2)) in *. set (w := entry P i (nth j order 0)) in *.
    pose proof (steps_trans S1 (steps_trans S2 S3)) as SS.
    eapply IH with (pv := pv') (j := S j) (v := (qmax a v + w)%Qc); [lia|exact O|exact Ft|exact Fo|exact Le| |].
    { eapply Forall2_imp; [|exact Lr']. intros y b. apply late_keeps. exact (steps_keeps SS). }
    intros zs m4 S4 A4 HF. specialize (HQ (e :: zs) m4). cbn [rev] in HQ. rewrite <- app_assoc in HQ. cbn [app] in HQ. apply HQ.
    + exact (steps_trans SS S4).
    + exact (more_trans A1 (more_trans A2 (more_trans A3 A4))).
    + rewrite (@skipn_nth _ 0%Qc) by (rewrite work_length; lia). rewrite work_nth by lia. fold w. cbn [machine]. cbv zeta.
      constructor; [|exact HF]. exact (late_keeps (steps_keeps S4) Le).
Qed.

(** A later machine: the first job's end is the node [N] itself, with one more term. *)
Lemma next_runs N t tm i rest pv ps m (Q : list nat -> pym -> Prop) :
  i < M -> S (length rest) = J -> open_ (eq N) m -> fact (eq N) m dv tm (KConst (concat P)) [Z.of_nat M; Z.of_nat J] true (concat P) ->
  fact (eq N) m dv 1 KList [Z.of_nat J] true (numbers order) ->
  nth_error (p_syms m) N = Some (Sym (KNary NAdd) ps [] true) -> Forall2 (late dv (eq N) N t m) rest pv ->
  (forall z zs m', steps (eq N) m m' -> nth_error (p_syms m') N = Some (Sym (KNary NAdd) (ps ++ [z]) [] true) ->
     yp (eq N) m' dv z [entry P i (hd 0 order)] -> Forall2 (late dv (eq N) N t m') zs (machine t pv (tl (work i))) -> Q (rev zs ++ [N]) m') ->
  runs (next_machine tm 1 i (N :: rest)) m Q.
Proof.
  intros Hi Hl Hop Ft Fo HN Lr HQ. unfold next_machine. cbn [length seq combine pfor].
  apply runs_bind. apply runs_bind. eapply runs_op; [exact Hop|exact Ft|exact Fo|exact Hi|lia|]. intros z m1 S1 A1 Fz. advance S1.
  apply (@appended_nth _ _ _ _ A1) in HN.
  apply runs_bind. eapply runs_iadd_same; [exact O|reflexivity|exact HN|exact Fz|reflexivity|]. intros m2 S2 _ HN2. advance S2. apply runs_ret.
  pose proof (steps_trans S1 S2) as SS. replace (nth 0 order 0) with (hd 0 order) in Fz by (now destruct order).
  eapply next_rest with (N := N) (t := t) (pv := pv) (v := t) (acc := []); [exact Hi|lia|exact O|exact Ft|exact Fo|eapply late_self; [exact HN2|reflexivity]| |].
  { eapply Forall2_imp; [|exact Lr]. intros y b. apply late_keeps. exact (steps_keeps SS). }
  intros zs m3 S3 A3 HF. apply (HQ z zs m3); [exact (steps_trans SS S3)|exact (@appended_nth _ _ _ _ A3 HN2)| |].
  - apply (fact_steps S3) in Fz. now destruct Fz as [_ [_ Y]].
  - replace (tl (work i)) with (skipn 1 (work i)); [exact HF|]. now destruct (work i).
Qed.
(** All later machines. *)
Lemma others_runs N t tm : forall n i rest pv ps ts m (Q : list nat -> pym -> Prop),
  i + n = M -> S (length rest) = J -> open_ (eq N) m -> fact (eq N) m dv tm (KConst (concat P)) [Z.of_nat M; Z.of_nat J] true (concat P) ->
  fact (eq N) m dv 1 KList [Z.of_nat J] true (numbers order) ->
  nth_error (p_syms m) N = Some (Sym (KNary NAdd) ps [] true) -> Forall2 (yp (eq N) m dv) ps (map (fun v => [v]) ts) -> Forall2 (late dv (eq N) N t m) rest pv ->
  (forall zs vs ps' m', steps (eq N) m m' -> nth_error (p_syms m') N = Some (Sym (KNary NAdd) ps' [] true) ->
     Forall2 (yp (eq N) m' dv) ps' (map (fun v => [v]) (ts ++ map (fun i => entry P i (hd 0 order)) (seq i n))) ->
     Forall2 (late dv (eq N) N t m') zs vs -> t :: vs = held_machines order t (t :: pv) (skipn i P) -> Q (rev (N :: zs)) m') ->
  runs (pfor (seq i n) (fun ends i => next_machine tm 1 i (rev ends)) (rev (N :: rest))) m Q.
Proof.
  induction n as [|n IH]; intros i rest pv ps ts m Q Hin Hl Hop Ft Fo HN Hps Lr HQ; cbn [seq pfor].
  - apply runs_ret. apply HQ with pv ps; [now apply steps_refl|exact HN|now rewrite app_nil_r|exact Lr|].
    rewrite skipn_all2 by (destruct HP as [-> _]; lia). reflexivity.
  - rewrite rev_involutive. apply runs_bind. eapply next_runs with (t := t) (pv := pv); [lia|exact Hl|exact Hop|exact Ft|exact Fo|exact HN|exact Lr|].
    intros z zs m1 S1 HN1 Yz HF. advance S1. change (rev zs ++ [N]) with (rev (N :: zs)).
    assert (Lz : length zs = length rest).
    { rewrite (Forall2_len HF), (Forall2_len Lr). apply machine_length. rewrite <- (Forall2_len Lr). pose proof (work_length i). destruct (work i); cbn in *; lia. }
    eapply IH with (pv := machine t pv (tl (work i))) (ts := ts ++ [entry P i (hd 0 order)]); [lia|lia|exact O|exact Ft|exact Fo|exact HN1| |exact HF|].
    { rewrite map_app. apply Forall2_app; [|constructor; [exact Yz|constructor]]. eapply Forall2_imp; [|exact Hps]. intros a b. apply yp_keeps. exact (steps_keeps S1). }
    intros zs' vs ps' m2 S2 HN2 Hps2 HF2 Ev. apply HQ with vs ps'; [exact (steps_trans S1 S2)|exact HN2| |exact HF2|].
    + rewrite <- app_assoc in Hps2. exact Hps2.
    + rewrite Ev. rewrite (@skipn_nth _ [] i P) by (destruct HP as [-> _]; lia). cbn [held_machines]. f_equal. fold (work i). unfold held_machine.
      destruct (work i) eqn:Ew; [|reflexivity]. exfalso. pose proof (work_length i) as W. rewrite Ew in W. cbn in W. lia.
Qed.
Lemma flow_shop_runs :
  runs (flow_shop_scheduling P) no_model (fun x m => x = 1 /\ decision m 1 KList [Z.of_nat J] /\ p_cons m = [] /\ objective m dv (held_makespan P order)).
Proof.
  unfold flow_shop_scheduling. apply runs_bind. eapply runs_require_matrix; [exact HM|exact HP|exact HP0|].
  replace ((Z.of_nat M =? 0) || (Z.of_nat J =? 0))%Z with false by (symmetry; rewrite orb_false_iff, !Z.eqb_neq; lia). rewrite !Nat2Z.id.
  apply runs_bind. apply runs_ret.
  apply runs_bind. eapply runs_constant with (dv := dv) (B := nobody); [apply nobody_open|]. intros tm m1 _ L1 S1 F1. advance S1.
  apply runs_bind. unfold list_var. apply runs_emit_dec with (B := nobody) (dv := dv); [exact O|reflexivity|].
  intros od m2 Hod _ S2 F2. advance S2. assert (od = 1) as -> by (rewrite Hod, L1; reflexivity). rewrite Hdv in F2.
  apply runs_bind. unfold first_machine. destruct J as [|J'] eqn:EJ; [lia|]. cbn [seq pfor]. rewrite <- EJ in *.
  apply runs_bind. apply runs_bind. eapply runs_op; [exact O|exact F1|exact F2|lia|lia|]. intros z0 m3 S3 A3 F3. advance S3. apply runs_ret.
  set (w0 := entry P 0 (nth 0 order 0)) in *.
  assert (Hw0 : (0 <= w0)%Qc).
  { pose proof (work_nonneg 0) as W. unfold nonnegative in W. rewrite Forall_forall in W. apply W. unfold w0. rewrite <- work_nth by lia. apply nth_In. rewrite work_length. lia. }
  eapply first_rest with (v := w0); [lia|exact O|exact F1|exact F2|exists (KAdv [true]), true; exact F3|exact Hw0|].
  intros zs m4 S4 HF. advance S4. set (vals := machine w0 (repeat 0%Qc J') (skipn 1 (work 0))) in *.
  assert (EV : machine 0%Qc (map (fun _ => 0%Qc) order) (work 0) = w0 :: vals).
  { assert (W0 : work 0 = w0 :: skipn 1 (work 0)).
    { unfold w0. rewrite <- work_nth by lia. exact (@skipn_nth _ 0%Qc 0 (work 0) ltac:(rewrite work_length; lia)). }
    rewrite W0. destruct order as [|o0 os]; [cbn in Ho; lia|]. cbn [map machine]. cbv zeta.
    replace (qmax 0 0 + w0)%Qc with w0 by (unfold qmax; destruct (qltb 0%Qc 0%Qc); ring). f_equal. unfold vals. f_equal.
    cbn in Ho. replace J' with (length os) by lia. clear. induction os; cbn; congruence. }
  change (rev zs ++ [z0]) with (rev (z0 :: zs)). set (h := hd 0 order). assert (E0 : nth 0 order 0 = h) by (unfold h; now destruct order).
  assert (HPn : exists row0 P', P = row0 :: P') by (destruct P as [|r0 P'] eqn:EP; [destruct HP as [H1 _]; cbn in H1; lia|eauto]). destruct HPn as (row0 & P' & EP).
  assert (EW : map (fun j => nth j row0 0%Qc) order = work 0) by (unfold work; now rewrite EP).
  assert (HMK : held_makespan P order = last (held_machines order (qsum_of (map (fun row => nth h row 0%Qc) P)) (w0 :: vals) P') 0%Qc).
  { rewrite EP at 1. cbn [held_makespan]. rewrite <- EP, EW, EV. reflexivity. }
  apply runs_bind. destruct (Nat.eq_dec M 1) as [EM|NM].
  - rewrite EM. cbn [Nat.sub seq pfor]. apply runs_ret.
    assert (P' = []) as -> by (destruct HP as [H1 _]; rewrite EP in H1; cbn in H1; destruct P'; [reflexivity|cbn in H1; lia]).
    cbn [held_machines] in HMK. rewrite hd_rev with (d := 0).
    assert (KL : knows nobody m4 (last (z0 :: zs) 0) (last (w0 :: vals) 0%Qc)).
    { apply Forall2_last; [|discriminate]. constructor; [|exact HF]. exists (KAdv [true]), true. exact F3. }
    destruct KL as (c & ct & FL). rewrite <- HMK in FL.
    apply runs_bind. cbn [the]. apply runs_ret. apply runs_bind. eapply runs_minimize; [exact FL|reflexivity|]. apply runs_ret.
    split; [reflexivity|]. split; [destruct F2 as [[q E2] _]; do 2 eexists; exact E2|]. split; [|eapply fact_objective; exact FL].
    repeat match goal with S : steps _ _ _ |- _ => destruct S as (_ & _ & ? & _) end. cbn [p_cons].
    repeat match goal with H : p_cons ?m = _ |- context [p_cons ?m] => rewrite H end. reflexivity.
  - replace (M - 1) with (S (M - 2)) by lia. cbn [seq pfor]. rewrite rev_involutive. apply runs_bind.
    unfold next_machine at 1. cbn [length seq combine pfor]. apply runs_bind.
    apply runs_bind. eapply runs_op; [exact O|exact F1|exact F2|lia|lia|]. intros z1 m5 S5 A5 F5. advance S5. rewrite E0 in F5. set (w1 := entry P 1 h) in *.
    set (N := length (p_syms m5)). set (t := qsum_of (map (fun row => nth h row 0%Qc) P)) in *.
    assert (HB : forall y, y < length (p_syms m5) -> ~ eq N y) by (unfold N; intros; lia).
    (* the node that will change is created *)
    pose proof F3 as [[p3 E3] [_ Y3]]. pose proof F5 as [[p5 E5] [_ Y5]].
    apply runs_bind. unfold iadd at 1, inplace. apply runs_bind. eapply runs_look; [exact E3|]. cbn [s_cls same_nop]. unfold nary. apply runs_bind. cbn [looks].
    apply runs_bind. eapply runs_look; [exact E3|]. apply runs_bind. apply runs_bind. eapply runs_look; [exact E5|]. apply runs_bind. apply runs_ret. apply runs_ret.
    apply runs_ret. apply runs_bind. eapply runs_lift; [reflexivity|]. unfold emit. eexists _, _. split; [reflexivity|]. fold N. apply runs_ret.
    set (m6 := Pym (p_syms m5 ++ [Sym (KNary NAdd) [z0; z1] [] true]) (p_obj m5) (p_cons m5)).
    assert (K6 : keeps (eq N) m5 m6) by apply keeps_app.
    assert (O6 : open_ (eq N) m6) by (intros z Hz; unfold m6 in Hz; cbn in Hz; rewrite app_length in Hz; cbn in Hz; unfold N; lia).
    assert (HN : nth_error (p_syms m6) N = Some (Sym (KNary NAdd) [z0; z1] [] true)) by (unfold m6, N; cbn [p_syms]; rewrite nth_error_app2, Nat.sub_diag by lia; reflexivity).
    assert (FB : forall x c sh ct v, fact nobody m5 dv x c sh ct v -> fact (eq N) m6 dv x c sh ct v) by (intros x c sh ct v FF; apply (fact_keeps K6); eapply fact_ban; [exact HB|exact FF]).
    assert (Lr : Forall2 (late dv (eq N) N t m6) zs vals).
    { eapply Forall2_imp; [|exact HF]. intros y v KK. apply (knows_keeps (steps_keeps S5)) in KK. destruct KK as (c & ct & FF). eapply late_fact. apply FB. exact FF. }
    assert (Lzs : S (length zs) = J).
    { rewrite (Forall2_len HF). change (length (w0 :: vals) = J). rewrite <- EV, machine_length; rewrite ?map_length, ?work_length; auto. }
    eapply next_rest with (N := N) (t := t) (pv := vals) (v := t) (acc := []); [lia|cbn; lia|exact O6|apply FB; exact F1|apply FB; exact F2|eapply late_self; [exact HN|reflexivity]|exact Lr|].
    intros zs1 m7 S7 A7 HF7. change (steps (eq N) m6 m7) in S7. apply (@appended_nth _ _ _ _ A7) in HN. change (rev zs1 ++ [N]) with (rev (N :: zs1)).
    apply FB in F1, F2, F3, F5. advance S7.
    assert (Lzs1 : S (length zs1) = J).
    { rewrite (Forall2_len HF7), machine_length; rewrite <- (Forall2_len Lr); [exact Lzs|]. pose proof (work_length 1). destruct (work 1); cbn in *; lia. }
    eapply others_runs with (t := t) (ts := [w0; w1]); [lia|exact Lzs1|exact O0|exact F1|exact F2|exact HN| |exact HF7|].
    { constructor; [now destruct F3 as [_ [_ Y]]|]. constructor; [now destruct F5 as [_ [_ Y]]|constructor]. }
    intros zs2 vs ps m8 S8 HN8 Hps HF8 EVS. advance S8.
    assert (HT : yields m8 dv N [t]).
    { eapply y_op; [exact HN8|reflexivity| |].
      - eapply Forall2_imp; [|exact Hps]. intros a b. apply yp_yields.
      - cbn [s_cls s_pred meaning nop_func]. unfold shapes_of. rewrite map_length, (Forall2_len Hps), map_length, nary_sum by (cbn; discriminate). do 2 f_equal.
        unfold t. f_equal. destruct HP as [HPl _]. rewrite <- (map_nth_seq P []) at 1. rewrite HPl, map_map. replace M with (S (S (M - 2))) by lia. cbn [seq map app].
        unfold w0, w1, entry. rewrite E0. replace (S (S (M - 2)) - 2) with (M - 2) by lia. reflexivity. }
    assert (LL : late dv (eq N) N t m8 (last (N :: zs2) 0) (last (t :: vs) 0%Qc)).
    { apply Forall2_last; [|discriminate]. constructor; [eapply late_self; [exact HN8|reflexivity]|exact HF8]. }
    assert (EL : last (t :: vs) 0%Qc = held_makespan P order).
    { rewrite HMK, EVS. replace (skipn 2 P) with (skipn 1 P') by (now rewrite EP). destruct P' as [|row1 P2]; [destruct HP as [H1 _]; rewrite EP in H1; cbn in H1; lia|]. cbn [skipn held_machines held_machine].
      assert (W1 : map (fun j => nth j row1 0%Qc) order = work 1) by (unfold work; now rewrite EP). rewrite W1.
      destruct (work 1) as [|a1 l1] eqn:E1; [pose proof (work_length 1) as W; rewrite E1 in W; cbn in W; lia|]. reflexivity. }
    rewrite EL in LL. destruct LL as [(sl & Hl & El) LL]. specialize (LL m8 (keeps_refl _ _) HT).
    rewrite hd_rev with (d := 0). apply runs_bind. cbn [the]. apply runs_ret. apply runs_bind. unfold minimize. apply runs_bind. eapply runs_look; [exact Hl|]. rewrite El.
    change (shape_to_size [] =? 1)%Z with true. cbv iota. eexists _, _. split; [reflexivity|]. apply runs_ret.
    split; [reflexivity|]. split; [destruct F2 as [[q E2] _]; do 2 eexists; exact E2|]. split.
    + cbn [p_cons]. repeat match goal with S : steps _ _ _ |- _ => destruct S as (_ & _ & ? & _) end. unfold m6 in *. cbn [p_cons] in *.
      repeat match goal with H : p_cons ?m = _ |- context [p_cons ?m] => rewrite H end. reflexivity.
    + exists (last (N :: zs2) 0). split; [reflexivity|]. revert LL. apply yields_same. reflexivity.
Qed.
End Flow.
