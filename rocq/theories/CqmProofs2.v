(** Models of constrained quadratic models: objective and constraints. *)
From Verif Require Import Base Num SliceModel ShapeModel StateDataModel NodeSpec BinaryModel NaryModel ReduceModel BoundsModel AdvModel NarySpec ReduceSpec BinarySpec
  QuadModel QuadSpec QuadProofs QuadProofs2 QuadProps PyModel GenModel PySpec GenSpec PyProofs PyValues PyRules GenProofs GenProofs6 GenProofs7 CqmModel CqmSpec CqmProofs.
Set Implicit Arguments.

Lemma combine_seq (f : num -> num -> num) : forall a b d e, length a = length b -> map (fun p => f (fst p) (snd p)) (combine a b) = map (fun i => f (nth i a d) (nth i b e)) (seq 0 (length a)).
Proof.
  induction a as [|x a IH]; intros [|y b] d e H; try discriminate; [reflexivity|]. cbn [combine map length seq nth fst snd]. f_equal. rewrite <- seq_shift, map_map. cbn [nth]. apply IH. now injection H.
Qed.
Lemma nth_picks (vars : list nat) (x : list num) i : (i < length vars)%nat -> nth i (map (fun v => nth v x 0%Qc) vars) 0%Qc = nth (nth i vars 0) x 0%Qc.
Proof. intros H. rewrite (nth_indep _ _ (nth 0 x 0%Qc)) by (now rewrite map_length). apply (map_nth (fun v => nth v x 0%Qc)). Qed.
Lemma bits_at (x : list num) i : Forall bit x -> bit (nth i x 0%Qc).
Proof. intros F. destruct (Nat.lt_ge_cases i (length x)) as [H|H]; [rewrite Forall_forall in F; apply F, nth_In, H|]. rewrite nth_overflow by exact H. now left. Qed.
Lemma existsb_no {A} (f : A -> bool) l : Forall (fun a => f a = false) l -> existsb f l = false.
Proof. induction 1 as [|a l H _ IH]; cbn; [reflexivity|]. now rewrite H, IH. Qed.

Lemma nodup_below n l : NoDup l -> Forall (fun v => v < n) l -> length l <= n.
Proof.
  intros H F. rewrite <- (seq_length n 0). apply NoDup_incl_length; [exact H|]. intros v Hv. rewrite Forall_forall in F. apply in_seq. specialize (F v Hv). lia.
Qed.

Section Run.
Variable dv : nat -> list num.
Notation fact := (fact nobody).
Notation open_ := (open_ nobody).
Notation steps := (steps nobody).
(** A quadratic model by coordinates. *)
Lemma runs_quadratic logical y c sh (v : list num) quad lin m (Q : nat -> pym -> Prop) :
  open_ m -> fact m dv y c sh true v -> sh = [Z.of_nat (length v)] -> (1 <= length v)%nat -> (length lin <= length v)%nat -> quad <> [] -> Forall (in_coords (length v)) quad -> (logical = true -> Forall bit v) ->
  (forall z m' q, steps m m' -> fact m' dv z (KQuad logical q) [] true [coords_value quad lin (fun i => nth i v 0%Qc)] -> Q z m') ->
  runs (quadratic_model logical y quad lin) m Q.
Proof.
  intros Ho F -> Hv Hl Hq Hin Hb HQ. pose proof (fact_shape F) as Hsh. destruct F as [[ps E] [Nb Y]]. unfold quadratic_model. apply runs_bind. eapply runs_look; [exact E|]. cbn [s_shape dynamic].
  destruct (Z.ltb_spec (Z.of_nat (length v)) 0); [lia|]. destruct (Z.ltb_spec (Z.of_nat (length v)) 1); [lia|]. destruct (Z.ltb_spec (Z.of_nat (length v)) (Z.of_nat (length lin))); [lia|].
  destruct (Nat.eqb_spec (length quad) 0) as [H2|_]; [destruct quad; [contradiction|discriminate]|].
  rewrite existsb_no. 2:{ eapply Forall_impl; [|exact Hin]. intros [[a b] d] [H3 H4]. cbn in *. lia. } cbn [orb].
  rewrite existsb_no. 2:{ eapply Forall_impl; [|exact Hin]. intros [[a b] d] [H3 H4]. cbn in *. lia. }
  rewrite Nat2Z.id. destruct (@coords_ok logical (length v) quad lin Hl Hin) as (q & b & Eq & Hn & R & S & _ & Hval).
  apply runs_bind. eapply runs_lift; [exact Eq|]. apply runs_bind. eapply runs_lift; [apply C33_accepts; now rewrite Hn|].
  apply runs_emit with (B := nobody) (dv := dv) (ins := [v]) (v := [coords_value quad lin (fun i => nth i v 0%Qc)]); [exact Ho|reflexivity|constructor; [exact Y|constructor]| |intros z m' S' F'; exact (HQ z m' q S' F')].
  cbn [meaning q_fun]. rewrite Hn, Nat.eqb_refl. do 2 f_equal. rewrite <- (Hval (fun i => nth i v 0%Qc)) by (intros L i _; apply bits_at, Hb, L).
  apply qvalue_same.
  - intros i Hi. cbn [reported b_lin]. now rewrite (get_lin_ok _ _ _ i R Hi).
  - intros i j Hi Hj. cbn [reported b_quad]. now rewrite (get_quad_ok _ _ _ i j R Hi Hj).
Qed.

Variables (n : nat) (x : nat) (xs : list num).
Hypothesis Hx : length xs = n.
Hypothesis Hbits : Forall bit xs.
Hypothesis Hn : (Z.of_nat n < 2147483648)%Z.

Lemma part_runs q m (Q : nat -> pym -> Prop) : proper n q -> open_ m -> fact m dv x KBinary [Z.of_nat n] true xs ->
  (forall y m' c, steps m m' -> fact m' dv y c [] true [qm_value q xs] -> Q y m') -> runs (cqm_part x q) m Q.
Proof.
  intros (Hnd & Hv & Hl & Hq) Ho Fx HQ. assert (Hk0 : length (d_vars q) <= n) by (now apply nodup_below). unfold cqm_part, zlen. rewrite Hl.
  apply runs_bind. eapply runs_constant with (dv := dv); [exact Ho|]. intros ix m1 _ _ S1 F1. advance S1.
  apply runs_bind. eapply runs_constant with (dv := dv); [eassumption|]. intros li m2 _ _ S2 F2. advance S2.
  fold (numbers (d_vars q)) in F1. set (k := length (d_vars q)) in *. set (ys := map (fun v => nth v xs 0%Qc) (d_vars q)). assert (Ly : length ys = k) by apply map_length.
  assert (Hoff : forall y m3 c v, steps m m3 -> fact m3 dv y c [] true [v] -> (v + d_off q = qm_value q xs)%Qc -> runs (if qeqb (d_off q) 0%Qc then ret y else do c <- constant [] [d_off q] ; binop BPlus y c) m3 Q).
  { intros y m3 c v S3 F3 E. destruct (qeqb_spec (d_off q) 0%Qc) as [E0|_].
    - apply runs_ret. eapply HQ; [exact S3|]. rewrite E0, Qcplus_0_r in E. rewrite <- E. exact F3.
    - pose proof (steps_open S3). apply runs_bind. eapply runs_constant with (dv := dv); [eassumption|]. intros z m4 _ _ S4 F4. advance S4.
      eapply runs_scalars; [eassumption|exact F3|exact F4|discriminate|discriminate|]. intros w m5 S5 F5. eapply HQ; [exact (steps_trans (steps_trans S3 S4) S5)|]. rewrite <- E. exact F5. }
  assert (Fx' := Fx). rewrite <- Hx in Fx'.
  apply runs_bind. destruct (d_quad q) as [|t quad] eqn:Eq.
  - apply runs_bind. eapply runs_gather_item; [eassumption|exact Fx'|exact I|exact F1|cbn; lia|now rewrite Hx|]. intros y m3 S3 F3. fold ys in F3. advance S3.
    apply runs_bind. eapply runs_same; [eassumption|exact F2|exact F3|discriminate|discriminate| | | | |].
    { rewrite size1; lia. } { cbn. destruct (Z.ltb_spec (Z.of_nat k) 0); [lia|reflexivity]. } { rewrite Hl. cbn. lia. } { now rewrite Hl, Ly. }
    intros p m4 S4 F4. advance S4. eapply runs_sum; [eassumption|exact F4|]. intros s m5 S5 F5.
    eapply Hoff; [exact (steps_trans (steps_trans (steps_trans (steps_trans S1 S2) S3) S4) S5)|exact F5|].
    unfold qm_value. rewrite Eq. cbn [map qsum_of]. rewrite (@combine_seq (bop_total BMul) (d_lin q) ys 0%Qc 0%Qc) by (now rewrite Hl, Ly). rewrite Hl. fold k.
    rewrite (map_ext_in _ (fun i => (nth i (d_lin q) 0 * nth (nth i (d_vars q) 0%nat) xs 0)%Qc)); [ring|]. intros i Hi. apply in_seq in Hi. unfold bop_total. cbn [bop_func]. unfold ys. rewrite nth_picks by (fold k; lia). reflexivity.
  - rewrite <- Eq in *. assert (Hk : 1 <= k) by (rewrite Eq in Hq; inversion Hq as [|? ? [Ha _] _]; subst; lia).
    apply runs_bind. eapply runs_gather_item; [eassumption|exact Fx'|exact I|exact F1|cbn; lia|now rewrite Hx|]. intros y m3 S3 F3. fold ys in F3. advance S3.
    eapply runs_quadratic; [eassumption|exact F3|now rewrite Ly|lia|lia|rewrite Eq; discriminate| |intros _; unfold ys; apply Forall_map, Forall_forall; intros v _; now apply bits_at|].
    { rewrite Ly. apply Forall_map. eapply Forall_impl; [|exact Hq]. intros [[a b] d] [H1 H2]. unfold in_coords. cbn [fst snd] in *. lia. }
    intros z m4 qq S4 F4. eapply Hoff; [exact (steps_trans (steps_trans (steps_trans S1 S2) S3) S4)|exact F4|].
    unfold coords_value, qm_value. rewrite Hl. fold k. rewrite (map_ext_in (fun i => (nth i (d_lin q) 0 * nth i ys 0)%Qc) (fun i => (nth i (d_lin q) 0 * nth (nth i (d_vars q) 0%nat) xs 0)%Qc)).
    2:{ intros i Hi. apply in_seq in Hi. unfold ys. rewrite nth_picks by (fold k; lia). reflexivity. }
    rewrite map_map. cbn [fst snd].
    rewrite (map_ext_in _ (fun t => (snd t * nth (nth (fst (fst t)) (d_vars q) 0%nat) xs 0 * nth (nth (snd (fst t)) (d_vars q) 0%nat) xs 0)%Qc)); [ring|].
    intros [[a b] d] Ht. rewrite Forall_forall in Hq. destruct (Hq _ Ht) as [H1 H2]. cbn [fst snd] in *. rewrite !Nat2Z.id. unfold ys. rewrite !nth_picks by assumption. reflexivity.
Qed.

Definition metb (k : dqm * sense * num) : bool := let v := qm_value (fst (fst k)) xs in match snd (fst k) with SEq => qeqb v (snd k) | SLe => qleb v (snd k) | SGe => qleb (snd k) v end.
Lemma metb_met k : metb k = true <-> met xs k.
Proof.
  destruct k as [[q s] b]. unfold metb, met. cbn [fst snd]. destruct s; cbn [compares]; [|apply qleb_true|apply qleb_true]. destruct (qeqb_spec (qm_value q xs) b); split; intros; auto; try discriminate; contradiction.
Qed.
Lemma constraint_runs k m (Q : unit -> pym -> Prop) : proper n (fst (fst k)) -> open_ m -> fact m dv x KBinary [Z.of_nat n] true xs ->
  (forall m' c, grows nobody [c] m m' -> holds nobody m' dv c (metb k) -> Q tt m') -> runs (cqm_constraint x k) m Q.
Proof.
  intros Hp Ho Fx HQ. destruct k as [[q s] b]. cbn [fst snd] in *. unfold cqm_constraint. apply runs_bind. eapply part_runs; [exact Hp|exact Ho|exact Fx|]. intros y m1 c1 S1 F1. advance S1.
  apply runs_bind. eapply runs_constant with (dv := dv); [eassumption|]. intros r m2 _ _ S2 F2. advance S2. apply runs_bind.
  assert (H : forall c m3 cc, steps m2 m3 -> fact m3 dv c cc [] true [b2q (metb (q, s, b))] -> runs (add_constraint c) m3 Q).
  { intros c m3 cc S3 F3. eapply runs_constrain; [exact (steps_open S3)|exact F3|reflexivity|]. intros m4 G4. eapply HQ with (c := c); [change [c] with ([] ++ [c]); exact (grows_trans (grows_step (grows_step (steps_grows S1) S2) S3) G4)|].
    apply (fact_grows G4) in F3. do 3 eexists. exact F3. }
  destruct s; (eapply runs_scalars; [eassumption|first [exact F1|exact F2]|first [exact F1|exact F2]|discriminate|discriminate|]; intros c m3 S3 F3; eapply H; [exact S3|exact F3]).
Qed.
End Run.

Lemma cqm_runs c xs dv : c_binary c <> [] -> proper_cqm c -> length xs = length (c_binary c) -> Forall bit xs -> dv 0 = xs ->
  runs (from_cqm c) no_model (fun r m => r = Some 0 /\ decision m 0 KBinary [Z.of_nat (length (c_binary c))] /\ objective m dv (qm_value (c_obj c) xs) /\ feasible_iff m dv (Forall (met xs) (c_cons c))).
Proof.
  intros Hne (Hb & Ho & Hc & Hn) Hx Hbits Hdv. set (n := length (c_binary c)) in *. unfold from_cqm.
  apply runs_bind. unfold unless. rewrite existsb_no by (eapply Forall_impl; [|exact Hb]; intros b ->; reflexivity). apply runs_ret.
  fold n. destruct (Nat.eqb_spec n 0) as [E|_]; [destruct (c_binary c); [contradiction|discriminate]|]. unfold zlen. fold n.
  apply runs_bind. unfold binary. cbn [existsb]. destruct (Z.ltb_spec (Z.of_nat n) 0); [lia|]. cbn [orb].
  apply runs_emit_dec with (B := nobody) (dv := dv); [apply nobody_open|reflexivity|]. intros x m1 -> _ S1 F1. cbn [no_model p_syms length] in F1 |- *. rewrite Hdv in F1. advance S1.
  apply runs_bind. eapply part_runs; [exact Hx|exact Hbits|exact Hn|exact Ho|eassumption|exact F1|]. intros y m2 cy S2 F2. advance S2.
  apply runs_bind. eapply runs_minimize; [exact F2|reflexivity|]. set (m3 := Pym (p_syms m2) (Some y) (p_cons m2)).
  assert (K3 : keeps nobody m2 m3) by apply keeps_syms. apply (fact_keeps K3) in F1, F2. apply runs_bind.
  apply runs_pfor with (I := fun done _ m' => exists ks, grows nobody ks m3 m' /\ Forall2 (holds nobody m' dv) ks (map (metb xs) done)).
  - exists []. split; [apply grows_refl; apply nobody_open|constructor].
  - intros done k todo _ m4 E (ks & G & HF). grown G. eapply constraint_runs; [exact Hx|exact Hbits|exact Hn| |eassumption|exact F1|].
    { rewrite Forall_forall in Hc. apply Hc. rewrite E. apply in_or_app. right. now left. }
    intros m5 z G5 H5. exists (ks ++ [z]). split; [exact (grows_trans G G5)|]. rewrite map_app. apply Forall2_app; [|constructor; [exact H5|constructor]].
    eapply Forall2_imp; [|exact HF]. intros w b (cw & sw & tw & Fw). apply (fact_grows G5) in Fw. do 3 eexists. exact Fw.
  - intros [] m4 (ks & G & HF). grown G. apply runs_ret. split; [reflexivity|]. split; [destruct F1 as [[q E1] _]; do 2 eexists; exact E1|]. destruct G as (_ & G2 & G3 & _). cbn [m3 p_obj p_cons] in G2, G3.
    assert (E2 : p_cons m2 = []). { destruct S1 as (_ & _ & E1 & _), S2 as (_ & _ & E2 & _). rewrite E2, E1. reflexivity. } rewrite E2 in G3. cbn [app] in G3. split.
    + exists y. split; [exact G2|]. exact (fact_yields F2).
    + exists (map (metb xs) (c_cons c)). rewrite G3. split.
      * eapply Forall2_imp; [|exact HF]. intros w b (cw & sw & tw & Fw). exact (fact_yields Fw).
      * rewrite Forall_map. split; intros H'; (eapply Forall_impl; [|exact H']); intros k; cbn beta; apply metb_met.
Qed.
Lemma adds_quadratic lg x quad lin : adds 0 (quadratic_model lg x quad lin).
Proof.
  unfold quadratic_model. apply adds_bind0; [apply adds_look|]. intros s. destruct (dynamic _); [apply adds_raise|]. destruct (s_shape s) as [|d [|]]; try apply adds_raise.
  repeat match goal with |- adds _ (if ?b then _ else _) => destruct b; [apply adds_raise|] end. apply adds_bind0; [apply adds_lift|intros q]. apply adds_bind0; [apply adds_lift|intros ?]. now apply adds_emit0.
Qed.
Lemma adds_part x q : adds 0 (cqm_part x q).
Proof.
  unfold cqm_part. do 2 (apply adds_bind0; [counting|intros ?]). apply adds_bind0; [|intros ?; destruct (qeqb _ _); counting]. destruct (d_quad q); [counting|]. apply adds_bind0; [counting|]. intros y. apply adds_quadratic.
Qed.
Lemma adds_cqm c : c_binary c <> [] -> adds 1 (from_cqm c).
Proof.
  intros H. unfold from_cqm. apply adds_bind0; [counting|intros _]. destruct (Nat.eqb_spec (length (c_binary c)) 0) as [E|_]; [destruct (c_binary c); [contradiction|discriminate]|]. apply adds_bind1.
  - unfold binary. destruct (existsb _ _); [intros ? ? ? XX; discriminate XX|]. now apply adds_emit1.
  - intros x. apply adds_bind0; [apply adds_part|intros ?]. apply adds_bind0; [counting|intros ?]. apply adds_bind0; [|intros ?; counting]. apply adds_pfor0. intros _ [[q s] b]. unfold cqm_constraint. apply adds_bind0; [apply adds_part|intros ?]. apply adds_bind0; [counting|intros ?]. destruct s; counting.
Qed.
Theorem cqm_model c : c_binary c <> [] -> proper_cqm c ->
  exists m, from_cqm c no_model = Ok (Some 0, m) /\ (forall x, In x (decisions m) <-> x = 0) /\ decision m 0 KBinary [Z.of_nat (length (c_binary c))] /\
    forall dv xs, length xs = length (c_binary c) -> Forall bit xs -> dv 0 = xs -> objective m dv (qm_value (c_obj c) xs) /\ feasible_iff m dv (Forall (met xs) (c_cons c)).
Proof.
  intros Hne Hp. set (n := length (c_binary c)).
  assert (H0 : length (repeat 0%Qc n) = n /\ Forall bit (repeat 0%Qc n)) by (split; [apply repeat_length|]; apply Forall_forall; intros q Hq; apply repeat_spec in Hq; left; exact Hq).
  destruct (@one_model (option nat) (list num * (nat -> list num)) (from_cqm c) no_model (fun p => length (fst p) = n /\ Forall bit (fst p) /\ snd p 0 = fst p)
    (fun p r m => r = Some 0 /\ decision m 0 KBinary [Z.of_nat n] /\ objective m (snd p) (qm_value (c_obj c) (fst p)) /\ feasible_iff m (snd p) (Forall (met (fst p)) (c_cons c))) (repeat 0%Qc n, fun _ => repeat 0%Qc n)) as (a & m & E & H).
  - intros [p dv] (H1 & H2 & H3). cbn [fst snd] in *. now apply cqm_runs.
  - cbn [fst snd]. destruct H0. auto.
  - destruct (H (repeat 0%Qc n, fun _ => repeat 0%Qc n)) as (-> & D & _); [cbn [fst snd]; destruct H0; auto|]. exists m. split; [exact E|]. split; [eapply one_decision; [exact (@adds_cqm c Hne)|exact E|exact D|reflexivity]|]. split; [exact D|].
    intros dv xs H1 H2 H3. destruct (H (xs, dv)) as (_ & _ & H4); [cbn; auto|]. exact H4.
Qed.
Theorem cqm_refuses c : In false (c_binary c) -> from_cqm c no_model = Throw.
Proof. intros H. unfold from_cqm, bind, unless. assert (existsb negb (c_binary c) = true) as ->; [apply existsb_exists; now exists false|reflexivity]. Qed.
Theorem cqm_empty c : c_binary c = [] -> from_cqm c no_model = Ok (None, no_model).
Proof. intros H. unfold from_cqm. rewrite H. reflexivity. Qed.
