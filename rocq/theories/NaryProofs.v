From Verif Require Import Base SliceModel ShapeModel ShapeSpec StateDataModel StateDataSpec StateDataProofs Replay
  NodeSpec NodeLib BinaryModel NodeShape BinaryProofs Num NaryModel NarySpec.

Lemma nary_new_inv shapes s : nary_new shapes = Ok s ->
  shapes <> [] /\ Forall (fun t => t = s /\ (0 <= shape_to_size t)%Z) shapes.
Proof.
  unfold nary_new. destruct shapes as [|a shapes]; [discriminate|].
  destruct (existsb _ _) eqn:E; [discriminate|]. destruct (forallb _ _) eqn:F; [|discriminate].
  intros H. assert (a = s) by congruence. subst a. split; [discriminate|].
  apply Forall_forall. intros t Ht. split.
  - rewrite forallb_forall in F. specialize (F t Ht). destruct (zlist_eqb_spec s t); [congruence|discriminate].
  - destruct (Z.ltb_spec (shape_to_size t) 0); [|lia]. exfalso.
    assert (existsb (fun t => (shape_to_size t <? 0)%Z) (s :: shapes) = true); [|congruence].
    apply existsb_exists. exists t. split; [exact Ht|]. now apply Z.ltb_lt.
Qed.

Section Col.
Context {V : Type}.
Variable func : V -> V -> V.

Lemma column_def (views : list (list V)) n i : Forall (fun v => length v = n) views -> i < n ->
  exists c, column views i = Some c /\ length c = length views.
Proof.
  intros H L. induction H as [|v vs E H [c [IH Lc]]]; [exists []; auto|].
  unfold column in *. cbn [map all_some]. destruct (nth_error v i) as [x|] eqn:Ex; [|apply nth_error_None in Ex; lia].
  rewrite IH. exists (x :: c). cbn. auto.
Qed.
Lemma column_app (p s : list (list V)) l i cp cs x : column p i = Some cp -> column s i = Some cs ->
  nth_error l i = Some x -> column (p ++ l :: s) i = Some (cp ++ x :: cs).
Proof.
  revert cp. induction p as [|a p IH]; intros cp Hp Hs Hx; unfold column in *; cbn [app map all_some] in *.
  - injection Hp as <-. rewrite Hx, Hs. reflexivity.
  - destruct (nth_error a i); [|discriminate]. destruct (all_some (map _ p)) as [q|] eqn:E; [|discriminate].
    injection Hp as <-. rewrite (IH q eq_refl Hs Hx). reflexivity.
Qed.
Lemma column_ext (p s : list (list V)) l l1 i : nth_error l1 i = nth_error l i ->
  column (p ++ l1 :: s) i = column (p ++ l :: s) i.
Proof. intros H. unfold column. rewrite !map_app. cbn [map]. now rewrite H. Qed.
Lemma nary_at_def (views : list (list V)) n i : views <> [] -> Forall (fun v => length v = n) views -> i < n ->
  nary_at func views i <> None.
Proof.
  intros N H L. destruct (column_def views n i H L) as [c [E Lc]]. unfold nary_at. rewrite E.
  destruct c; [|discriminate]. destruct views; [congruence|discriminate].
Qed.

(** The fold of arrays is the array of folds. *)
Lemma zip_with_nth (a b : list V) i : nth_error (zip_with func a b) i =
  match nth_error a i, nth_error b i with Some x, Some y => Some (func x y) | _, _ => None end.
Proof. unfold zip_with. apply map2_nth. Qed.
Lemma zip_with_length (a b : list V) : length a = length b -> length (zip_with func a b) = length b.
Proof. intros H. unfold zip_with. rewrite map_length, combine_length. lia. Qed.
Lemma fold_zip_length n rest : forall a : list V, length a = n -> Forall (fun v => length v = n) rest ->
  length (fold_left (fun acc b => zip_with func b acc) rest a) = n.
Proof.
  induction rest as [|b rest IH]; intros a La H; [exact La|]. inversion H; subst. cbn [fold_left].
  apply IH; auto. rewrite zip_with_length; congruence.
Qed.
Lemma fold_zip_nth n rest : forall a i, length a = n -> Forall (fun v => length v = n) rest -> i < n ->
  nth_error (fold_left (fun acc b => zip_with func b acc) rest a) i = nary_at func (a :: rest) i.
Proof.
  induction rest as [|b rest IH]; intros a i La H L.
  - unfold nary_at, column. cbn [map all_some fold_left]. destruct (nth_error a i); reflexivity.
  - inversion H as [|x y Lb H']; subst x y. cbn [fold_left]. rewrite IH; auto; [|rewrite zip_with_length; congruence].
    unfold nary_at, column. cbn [map all_some]. rewrite zip_with_nth.
    destruct (nth_error b i) as [x|] eqn:Eb; [|apply nth_error_None in Eb; lia].
    destruct (nth_error a i) as [y|] eqn:Ea; [|apply nth_error_None in Ea; lia].
    destruct (all_some (map (fun v => nth_error v i) rest)); reflexivity.
Qed.
Lemma nary_fun_inv k n (ins : list (list V)) v : nary_fun func k ins = Some v -> Forall (fun v => length v = n) ins ->
  ins <> [] /\ length v = n /\ forall i, i < n -> nth_error v i = nary_at func ins i.
Proof.
  unfold nary_fun. destruct ins as [|a rest]; [discriminate|]. intros H F.
  destruct (_ && _); [|discriminate]. injection H as <-. inversion F; subst.
  split; [discriminate|]. split; [now apply fold_zip_length|]. intros i L. now apply (fold_zip_nth (length a)).
Qed.
End Col.

Section NP.
Context {V : Type} {veqb : V -> V -> bool}.
Variable vpad : V.
Variable spec : forall x y, reflect (x = y) (veqb x y).
Variable func : V -> V -> V.
Variable inv : option (V -> V -> option V).
(** Undoing one operand and redoing another. *)
Definition inv_ok := forall iv p old s new tot r, inv = Some iv ->
  nary_reduce func (p ++ old :: s) = Some tot -> iv tot old = Some r ->
  nary_reduce func (p ++ new :: s) = Some (func r new).
Notation Inv := (Inv veqb).

Definition partial_ok (c : list V) n (cur : list (list V)) (st : @adata V * list nat) : Prop :=
  Inv c (fst st) /\ Forall is_change (aupd (fst st)) /\ length (abuf (fst st)) = n /\
  Forall (fun i => i < n) (snd st) /\
  forall i, i < n -> ~ In i (snd st) -> nth_error (abuf (fst st)) i = nary_at func cur i.

Lemma inv_loop (HI : inv_ok) iv c n p s us : inv = Some iv ->
  Forall (fun v => length v = n) p -> Forall (fun v => length v = n) s ->
  forall l l1 st, length l = n -> replay veqb l us = Some l1 -> Forall is_change us ->
  partial_ok c n (p ++ l :: s) st ->
  exists st', rfold (nary_inv1 func iv) st us = Ok st' /\ partial_ok c n (p ++ l1 :: s) st'.
Proof.
  intros Ei Fp Fs. induction us as [|u us IH]; intros l l1 [d recs] Ll R C P.
  - rewrite rp_nil in R. injection R as <-. exists (d, recs). split; [reflexivity|exact P].
  - destruct (rp_cons_inv _ _ _ _ R) as [l0 [R1 R2]]. inversion C as [|x y [C1 C2] C']; subst x y.
    apply (rp1_inv spec) in R1. destruct R1 as [o v Eu En El|v Eu El|o Eu El];
      [|rewrite Eu in C1; cbn in C1; congruence|rewrite Eu in C2; cbn in C2; congruence].
    set (i := uidx u) in *. pose proof (nth_error_lt _ _ En) as Li.
    assert (L0 : length l0 = n) by (rewrite El, lset_length; exact Ll).
    destruct P as [P1 [P2 [P3 [P4 P5]]]]. cbn [fst snd] in *.
    destruct (nth_error (abuf d) i) as [cur|] eqn:Ec; [|apply nth_error_None in Ec; lia].
    assert (Ext : forall j, j <> i -> nary_at func (p ++ l0 :: s) j = nary_at func (p ++ l :: s) j).
    { intros j Hj. unfold nary_at. rewrite (column_ext p s l l0 j); [reflexivity|].
      rewrite El. apply nth_error_lset_neq. congruence. }
    assert (U1 : uold u = Some o) by (rewrite Eu; reflexivity).
    assert (U2 : uval u = Some v) by (rewrite Eu; reflexivity).
    assert (St : nary_inv1 func iv (d, recs) u = match iv cur o with
      | None => Ok (d, recs ++ [i])
      | Some r => Ok ({| abuf := lset i (func r v) (abuf d); aupd := aupd d ++ [change i cur (func r v)];
                         aprev := aprev d |}, recs) end).
    { unfold nary_inv1. fold i. rewrite Ec, U1, U2. reflexivity. }
    cbn [rfold]. rewrite St. clear St.
    destruct (iv cur o) as [r|] eqn:Er; cbn [rbind].
    + apply (IH l0); auto. split; [|split; [|split; [|split]]]; cbn [fst snd abuf aupd].
      * apply Inv_snoc; [exact P1|]. now apply rp_change.
      * apply Forall_app. split; [exact P2|]. constructor; [split; discriminate|constructor].
      * now rewrite lset_length.
      * exact P4.
      * intros j Hj Nj. destruct (Nat.eq_dec j i) as [->|Ne].
        -- rewrite nth_error_lset_eq by lia. specialize (P5 i Hj Nj). rewrite Ec in P5.
           destruct (column_def p n i Fp Hj) as [cp [Qp _]]. destruct (column_def s n i Fs Hj) as [cs [Qs _]].
           unfold nary_at in *. rewrite (column_app p s l i cp cs o Qp Qs En) in P5.
           rewrite (column_app p s l0 i cp cs v Qp Qs); [|rewrite El; apply nth_error_lset_eq; lia].
           symmetry. exact (HI iv cp o cs v cur r Ei (eq_sym P5) Er).
        -- rewrite nth_error_lset_neq by congruence. rewrite Ext by exact Ne. now apply P5.
    + apply (IH l0); auto. split; [|split; [|split; [|split]]]; cbn [fst snd]; auto.
      * apply Forall_app. split; [exact P4|]. repeat constructor. lia.
      * intros j Hj Nj. rewrite in_app_iff in Nj. cbn [In] in Nj. rewrite Ext by (intros ->; tauto). apply P5; tauto.
Qed.

Lemma inv_loops (HI : inv_ok) iv c n : inv = Some iv -> forall pins olds p st,
  Forall (fun v => length v = n) p -> Forall (fun v => length v = n) olds ->
  Forall2 (fun l q => replay veqb l (pdiff q) = Some (pview q) /\ Forall is_change (pdiff q)) olds pins ->
  partial_ok c n (p ++ olds) st ->
  exists st', rfold (fun st q => rfold (nary_inv1 func iv) st (pdiff q)) st pins = Ok st' /\
    partial_ok c n (p ++ map (@pview V) pins) st'.
Proof.
  intros Ei. induction pins as [|q pins IH]; intros olds p st Fp Fo H P; inversion H as [|l y olds' z [R C] H']; subst.
  - exists st. split; [reflexivity|exact P].
  - inversion Fo as [|a b Ll Fo']; subst a b.
    destruct (inv_loop HI iv c n p olds' (pdiff q) Ei Fp Fo' l (pview q) st Ll R C P) as [st1 [E1 P1]].
    cbn [rfold]. rewrite E1. cbn [rbind map].
    destruct (replay_changes_length spec _ _ _ R C) as [Lq _].
    destruct (IH olds' (p ++ [pview q]) st1) as [st' [E' P']]; auto.
    + apply Forall_app. split; [exact Fp|]. repeat constructor. congruence.
    + now rewrite <- app_assoc.
    + exists st'. split; [exact E'|]. now rewrite <- app_assoc in P'.
Qed.

Lemma pins_split s k ins (pins : list (pin V)) : dynamic s = false -> length ins = k ->
  pins_ok (veqb := veqb) (repeat s k) ins pins ->
  Forall (fun v => Z.of_nat (length v) = prod s) ins /\
  Forall2 (fun l q => replay veqb l (pdiff q) = Some (pview q) /\ Forall is_change (pdiff q)) ins pins.
Proof.
  intros D <-. revert pins. induction ins as [|a ins IH]; intros pins H; unfold pins_ok in H; cbn in H; inversion H as [|x q y z K H']; subst.
  - split; constructor.
  - cbn [fst snd] in K. destruct K as [k1 k2 k3 k4 k5]. destruct (IH _ H') as [A B].
    unfold fits, fits_len in k1. rewrite D in k1. split; constructor; auto.
Qed.

Theorem nary_ok s k : (0 < k) -> wf_shape s -> dynamic s = false -> inv_ok ->
  node_ok veqb (array_node vpad s (repeat s k) (nary_init func) (nary_prop veqb func inv)) (nary_fun func k).
Proof.
  intros K W D HI.
  set (n := Z.to_nat (prod s)).
  assert (FL : forall v : list V, fits s v -> length v = n).
  { intros v. unfold fits, fits_len. rewrite D. unfold n. lia. }
  assert (LF : forall v : list V, length v = n -> (exists w : list V, fits s w) -> fits s v).
  { intros v Lv [w Hw]. unfold fits, fits_len in *. rewrite D in *. unfold n in Lv. lia. }
  assert (FLs : forall m (ins : list (list V)), Forall2 fits (repeat s m) ins -> length ins = m /\ Forall (fits s) ins).
  { induction m as [|m IHm]; intros ins H; cbn [repeat] in H; inversion H as [|x y X Y Hx Hy]; subst; [split; auto|].
    destruct (IHm _ Hy) as [A B]. cbn [length]. split; [lia|constructor; auto]. }
  apply array_node_ok; [exact spec| |].
  - intros ins v Hf HF. destruct (FLs k ins Hf) as [Lk Fi].
    assert (Fn : Forall (fun v => length v = n) ins) by (eapply Forall_impl; [|exact Fi]; auto).
    destruct (nary_fun_inv func k n ins v HF Fn) as [Ne [Lv Nv]].
    split.
    + apply LF; [exact Lv|]. inversion Fi; [congruence|eauto].
    + unfold nary_init. destruct ins as [|a ins]; [congruence|]. cbn [map]. 
      inversion Fn as [|x y La Fr]; subst x y. cbn [pview still]. rewrite La.
      assert (E : a :: map (@pview V) (map still ins) = a :: ins).
      { f_equal. rewrite map_map. cbn [pview still]. apply map_id. }
      rewrite E. replace (all_some _) with (Some v); [reflexivity|]. symmetry.
      rewrite <- Lv. clear - Nv Lv. assert (G : forall m j (w : list V), length w = m ->
        (forall i, i < m -> nth_error w i = nary_at func (a :: ins) (j + i)) ->
        all_some (map (nary_at func (a :: ins)) (seq j m)) = Some w).
      { induction m as [|m IH]; intros j w Lw H; [destruct w; [reflexivity|discriminate]|].
        destruct w as [|x w]; [discriminate|]. cbn [seq map all_some].
        rewrite <- (Nat.add_0_r j) at 1. rewrite <- (H 0) by lia. cbn [nth_error].
        rewrite (IH (S j) w); [reflexivity|cbn in Lw; lia|]. intros i Hi. specialize (H (S i) ltac:(lia)). cbn [nth_error] in H.
        rewrite H. f_equal. lia. }
      apply G; [reflexivity|]. intros i Hi. apply Nv. lia.
  - intros ins v pins v' L HF HP HF'. rewrite repeat_length in L.
    destruct (pins_split s k ins pins D (eq_sym L) HP) as [Fo R].
    assert (Fn : Forall (fun v => length v = n) ins).
    { eapply Forall_impl; [|exact Fo]. cbn beta. unfold n. intros; lia. }
    assert (Fn' : Forall (fun v => length v = n) (map (@pview V) pins)).
    { apply Forall_map. clear - R Fn spec. induction R as [|l q ins pins [R C] H IH]; constructor; inversion Fn; subst; auto.
      destruct (replay_changes_length spec _ _ _ R C). congruence. }
    destruct (nary_fun_inv func k n ins v HF Fn) as [Ne [Lv Nv]].
    destruct (nary_fun_inv func k n _ v' HF' Fn') as [Ne' [Lv' Nv']].
    (* state before the final loop *)
    assert (S1 : exists st, (match inv with
         | None => Ok (a_init v, flat_map (fun p => map (@uidx V) (pdiff p)) pins)
         | Some iv => rfold (fun st p => rfold (nary_inv1 func iv) st (pdiff p)) (a_init v, []) pins
         end) = Ok st /\ partial_ok v n (map (@pview V) pins) st).
    { destruct inv as [iv|] eqn:Ei.
      - destruct (inv_loops HI iv v n Ei pins ins [] (a_init v, [])) as [st [E P]]; auto.
        + split; [apply Inv_init|]. cbn [fst snd abuf aupd a_init]. repeat split; auto.
        + exists st. auto.
      - eexists. split; [reflexivity|]. split; [apply Inv_init|]. cbn [fst snd abuf aupd a_init].
        split; [constructor|]. split; [exact Lv|]. split.
        + clear - R Fn spec. induction R as [|l q ins pins [R C] H IH]; cbn [flat_map]; [constructor|].
          inversion Fn as [|x y Ll Fr]; subst x y. apply Forall_app. split; auto. apply Forall_map.
          rewrite <- Ll. apply (replay_changes_length spec _ _ _ R C).
        + intros i Hi Ni. rewrite Nv by exact Hi. unfold nary_at, column.
          replace (map (fun v0 => nth_error v0 i) (map (@pview V) pins)) with (map (fun v0 => nth_error v0 i) ins); [reflexivity|].
          clear - R Ni spec. induction R as [|l q ins pins [R C] H IH]; [reflexivity|]. cbn [map flat_map] in *.
          rewrite in_app_iff in Ni. rewrite IH by tauto. f_equal. symmetry. apply (replay_untouched spec _ _ _ i R). tauto. }
    destruct S1 as [[d recs] [E [P1 [P2 [P3 [P4 P5]]]]]]. cbn [fst snd] in *.
    destruct (recompute_loop spec v (nary_rec1 veqb func (map (@pview V) pins)) (nary_at func (map (@pview V) pins)) recs)
      with (d := d) as [d' [Q1 [Q2 [Q3 [Q4 Q5]]]]]; auto.
    { intros d0 i w old A B. unfold nary_rec1. rewrite A, B. reflexivity. }
    { eapply Forall_impl; [|exact P4]. cbn beta. intros i Hi. split; [lia|]. now apply (nary_at_def func _ n). }
    exists d'. unfold nary_prop. rewrite E. cbn [rbind fst snd]. split; [exact Q1|]. split; [exact Q2|]. split; [|auto].
    apply nth_error_ext. intros i. destruct (Nat.lt_ge_cases i n) as [Hi|Hi].
    + rewrite Q5, Nv' by exact Hi. destruct (in_dec Nat.eq_dec i recs); [reflexivity|]. now apply P5.
    + rewrite !(proj2 (nth_error_None _ _)); auto; lia.
Qed.
End NP.

(** * The four operations *)
Local Open Scope Qc_scope.
Lemma fold_plus c : forall x, fold_left (fun val y => y + val) c x = x + qsum_of c.
Proof. induction c as [|a c IH]; intros x; cbn [fold_left qsum_of]; [ring|]. rewrite IH. ring. Qed.
Lemma fold_mult c : forall x, fold_left (fun val y => y * val) c x = x * qprod_of c.
Proof. induction c as [|a c IH]; intros x; cbn [fold_left qprod_of]; [ring|]. rewrite IH. ring. Qed.
Lemma qsum_of_app a b : qsum_of (a ++ b) = qsum_of a + qsum_of b.
Proof. induction a as [|x a IH]; cbn [app qsum_of]; [ring|]. rewrite IH. ring. Qed.
Lemma qprod_of_app a b : qprod_of (a ++ b) = qprod_of a * qprod_of b.
Proof. induction a as [|x a IH]; cbn [app qprod_of]; [ring|]. rewrite IH. ring. Qed.
Lemma reduce_plus c : c <> [] -> nary_reduce Qcplus c = Some (qsum_of c).
Proof. destruct c as [|x c]; [congruence|]. intros _. cbn [nary_reduce qsum_of]. f_equal. apply fold_plus. Qed.
Lemma reduce_mult c : c <> [] -> nary_reduce Qcmult c = Some (qprod_of c).
Proof. destruct c as [|x c]; [congruence|]. intros _. cbn [nary_reduce qprod_of]. f_equal. apply fold_mult. Qed.

Lemma reduce_max c m : nary_reduce qmax c = Some m -> is_max m c.
Proof.
  destruct c as [|x c]; [discriminate|]. cbn [nary_reduce]. intros H. injection H as <-.
  revert x. induction c as [|y c IH]; intros x; cbn [fold_left].
  - split; [now left|]. intros z [-> |[]]. apply Qcle_refl.
  - destruct (IH (qmax y x)) as [A B].
    assert (M : (qmax y x = y /\ x <= y) \/ (qmax y x = x /\ y <= x)) by (unfold qmax; qcase; [right|left]; split; auto; first [now apply Qclt_le_weak|now apply Qcnot_lt_le]).
    assert (X : qmax y x <= fold_left (fun val y0 => qmax y0 val) c (qmax y x)) by (apply B; now left).
    split.
    + destruct A as [A|A]; [|right; right; exact A]. rewrite <- A. destruct M as [[-> _]|[-> _]]; [right; now left|now left].
    + intros z [<- |[<- |H]]; [| |apply B; now right].
      * eapply Qcle_trans; [|exact X]. destruct M as [[-> ?]|[-> ?]]; auto. apply Qcle_refl.
      * eapply Qcle_trans; [|exact X]. destruct M as [[-> ?]|[-> ?]]; auto. apply Qcle_refl.
Qed.
Lemma reduce_min c m : nary_reduce qmin c = Some m -> is_min m c.
Proof.
  destruct c as [|x c]; [discriminate|]. cbn [nary_reduce]. intros H. injection H as <-.
  revert x. induction c as [|y c IH]; intros x; cbn [fold_left].
  - split; [now left|]. intros z [-> |[]]. apply Qcle_refl.
  - destruct (IH (qmin y x)) as [A B].
    assert (M : (qmin y x = y /\ y <= x) \/ (qmin y x = x /\ x <= y)) by (unfold qmin; qcase; [right|left]; split; auto; first [now apply Qclt_le_weak|now apply Qcnot_lt_le]).
    assert (X : fold_left (fun val y0 => qmin y0 val) c (qmin y x) <= qmin y x) by (apply B; now left).
    split.
    + destruct A as [A|A]; [|right; right; exact A]. rewrite <- A. destruct M as [[-> _]|[-> _]]; [right; now left|now left].
    + intros z [<- |[<- |H]]; [| |apply B; now right].
      * eapply Qcle_trans; [exact X|]. destruct M as [[-> ?]|[-> ?]]; auto. apply Qcle_refl.
      * eapply Qcle_trans; [exact X|]. destruct M as [[-> ?]|[-> ?]]; auto. apply Qcle_refl.
Qed.

Lemma nop_inv_ok o : inv_ok (nop_func o) (nop_inv o).
Proof.
  intros iv p old s new tot r. destruct o; cbn [nop_inv nop_func]; try discriminate; intros H; injection H as <-.
  - rewrite !reduce_mult by (destruct p; discriminate). intros A B. injection A as <-.
    destruct (qeqb_spec old 0) as [|N]; [discriminate|]. injection B as <-. f_equal.
    rewrite !qprod_of_app. cbn [qprod_of]. field. exact N.
  - rewrite !reduce_plus by (destruct p; discriminate). intros A B. injection A as <-. injection B as <-. f_equal.
    rewrite !qsum_of_app. cbn [qsum_of]. ring.
Qed.
