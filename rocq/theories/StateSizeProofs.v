(** Proofs for C62. *)
From Verif Require Import Base SliceModel ArithModel GraphModel SizeModel SizeSpec SizeProofs SizeProps StateSizeModel StateSizeSpec.
Local Open Scope Z_scope.

Lemma schk_nt z : schk z <> Throw.
Proof. unfold schk. destruct (_ && _)%bool; discriminate. Qed.
Lemma reduce_nt f : reduce f <> Throw.
Proof.
  unfold reduce. pose proof (schk_nt (Z.abs (numerator f))) as A. pose proof (schk_nt (Z.abs (denominator f))) as B.
  destruct (schk (Z.abs (numerator f))) as [x| |]; cbn [rbind]; [|congruence|discriminate].
  destruct (schk (Z.abs (denominator f))) as [y| |]; cbn [rbind]; [|congruence|discriminate].
  cbv zeta. set (g := if negb _ then _ else _). destruct (denominator g <? 0); [|discriminate].
  pose proof (schk_nt (numerator g * -1)) as C. pose proof (schk_nt (denominator g * -1)) as D.
  destruct (schk (numerator g * -1)) as [x'| |]; cbn [rbind]; [|congruence|discriminate].
  destruct (schk (denominator g * -1)) as [y'| |]; cbn [rbind]; [discriminate|congruence|discriminate].
Qed.
Lemma rbind_nt {A B} (r : res A) (f : A -> res B) : r <> Throw -> (forall a, r = Ok a -> f a <> Throw) -> rbind r f <> Throw.
Proof. destruct r; cbn [rbind]; intros H1 H2; [now apply H2|congruence|discriminate]. Qed.
Lemma mul_int_nt f n : fr_mul_int f n <> Throw.
Proof. unfold fr_mul_int. apply rbind_nt; [apply schk_nt|intros; apply reduce_nt]. Qed.
Lemma mul_nt f g : fr_mul f g <> Throw.
Proof. unfold fr_mul. apply rbind_nt; [apply schk_nt|]. intros. apply rbind_nt; [apply schk_nt|intros; apply reduce_nt]. Qed.
Lemma div_nt f n : n <> 0 -> fr_div_int f n <> Throw.
Proof. intros N. unfold fr_div_int. destruct (Z.eqb_spec n 0); [contradiction|]. apply rbind_nt; [apply schk_nt|intros; apply reduce_nt]. Qed.

(** What a slice declares. *)
Lemma slice_info_nt p s prow row : sstep s <> 0 -> prow <> 0 -> slice_info p s prow row <> Throw.
Proof.
  intros H1 H2. unfold slice_info. apply rbind_nt; [now apply div_nt|]. intros m _. apply rbind_nt; [apply mul_int_nt|]. intros m1 _.
  apply rbind_nt; [now apply div_nt|]. intros m2 _. apply rbind_nt.
  - destruct (sstart s >? 0); [apply rbind_nt; [apply mul_int_nt|discriminate]|]. destruct (sstart s <? 0); [|discriminate].
    apply rbind_nt; [apply mul_int_nt|]. intros. apply rbind_nt; [apply mul_int_nt|discriminate].
  - intros [off mx] _. apply rbind_nt; [|intros [? ?] _; discriminate].
    destruct (_ && _)%bool; [apply rbind_nt; [apply mul_int_nt|discriminate]|]. destruct (sstop s <? 0); [|discriminate].
    apply rbind_nt; [apply mul_int_nt|discriminate].
Qed.
Lemma slice_info_max p s prow row i : slice_info p s prow row = Ok i ->
  si_ptr i = Some p /\ (si_max i <> None <-> sstart s < 0 \/ (0 < sstop s /\ sstop s <> SMAX)).
Proof.
  unfold slice_info. intros H. apply rbind_inv in H as (m & _ & H). apply rbind_inv in H as (m1 & _ & H). apply rbind_inv in H as (m2 & _ & H).
  apply rbind_inv in H as ([off mx] & H1 & H). apply rbind_inv in H as ([off' mx'] & H2 & H). injection H as <-. cbn [si_ptr si_max]. split; auto.
  assert (M1 : mx <> None <-> sstart s < 0).
  { destruct (sstart s >? 0) eqn:G.
    - apply rbind_inv in H1 as (f & _ & E). injection E as <- <-. split; [congruence|lia].
    - destruct (sstart s <? 0) eqn:G'.
      + apply rbind_inv in H1 as (f & _ & E). apply rbind_inv in E as (f' & _ & E). injection E as <- <-. split; [lia|discriminate].
      + injection H1 as <- <-. split; [congruence|lia]. }
  destruct ((sstop s >? 0) && negb (sstop s =? SMAX))%bool eqn:G.
  - apply andb_true_iff in G as [G1 G2]. apply negb_true_iff in G2. apply Z.eqb_neq in G2.
    apply rbind_inv in H2 as (f & _ & E). injection E as <- <-. split; [intros _; right; lia|discriminate].
  - apply andb_false_iff in G. assert (N : ~ (0 < sstop s /\ sstop s <> SMAX)).
    { intros [A B]. destruct G as [G|G]; [lia|]. apply negb_false_iff in G. lia. }
    destruct (sstop s <? 0).
    + apply rbind_inv in H2 as (f & _ & E). injection E as <- <-. tauto.
    + injection H2 as <- <-. tauto.
Qed.

Section Nodes.
Variable nodes : list (option arr).
Notation ctx := (arrays_of nodes).
Hypothesis W : orderly nodes.

Lemma ctx_at id a : ctx id = Some a <-> nth_error nodes id = Some (Some a).
Proof. unfold arrays_of. destruct (nth_error nodes id) as [[b|]|]; split; congruence. Qed.

(** A declaration refers to the array itself or to its parent; it has a maximum where the array is limited. *)
Lemma info_ptr id a i : nth_error nodes id = Some (Some a) -> (forall n, a <> AFixed n) -> info ctx id = Ok i ->
  (si_ptr i = Some id /\ parent a = None) \/ exists p, parent a = Some p /\ si_ptr i = Some p.
Proof.
  intros E N. unfold info. rewrite (proj2 (ctx_at _ _) E). destruct a; intros H.
  - now destruct (N n).
  - injection H as <-. now left.
  - injection H as <-. now left.
  - injection H as <-. right. eexists. split; reflexivity.
  - injection H as <-. right. eexists. split; reflexivity.
  - right. eexists. split; [reflexivity|]. apply slice_info_max in H. apply H.
Qed.
Lemma info_nt id : nth_error nodes id <> Some None -> info ctx id <> Throw.
Proof.
  intros N. unfold info. destruct (ctx id) as [a|] eqn:E; [|discriminate]. apply ctx_at in E. destruct (W _ _ E) as [_ H].
  destruct a; try discriminate. destruct H. now apply slice_info_nt.
Qed.
(** No maximum here: then there is one iff there is one at the parent. *)
Lemma info_none id a i : nth_error nodes id = Some (Some a) -> (forall n, a <> AFixed n) -> info ctx id = Ok i -> si_max i = None ->
  (capped nodes id <-> exists p, parent a = Some p /\ capped nodes p).
Proof.
  intros E N I M. split.
  - intros C. destruct C as [id mn m X|id p s prow row X L|id b p X P C].
    + unfold info in I. rewrite (proj2 (ctx_at _ _) X) in I. injection I as <-. discriminate M.
    + unfold info in I. rewrite (proj2 (ctx_at _ _) X) in I. apply slice_info_max in I as [_ I]. exfalso.
      assert (si_max i <> None) by (apply I; exact L). congruence.
    + assert (b = a) by congruence. subst b. eauto.
  - intros (p & P & C). eapply K_up; eassumption.
Qed.

Definition omax (a b : option Z) : option Z := match a, b with Some x, Some y => Some (Z.min x y) | Some x, None => Some x | None, y => y end.
Lemma omax_none a b : omax a b = None <-> a = None /\ b = None.
Proof. destruct a, b; cbn; (split; [intros H; split|intros [H H']]); congruence. Qed.

Lemma subst1_cases t p s : si_ptr t = Some p -> info ctx p = Ok s ->
  (si_ptr s = Some p -> si_max s <> None -> exists m, si_max s = Some m /\ m < SMAX) ->
  match subst1 ctx t with
  | Ok (t', true) => t' = t /\ si_ptr s = Some p /\ (si_max t = None -> si_max s = None)
  | Ok (t', false) => si_ptr t' = si_ptr s /\ (si_max t' = None <-> si_max t = None /\ si_max s = None)
  | Throw => False
  | UB => True
  end.
Proof.
  intros Pt I Hm. unfold subst1. rewrite Pt, I. cbn [rbind]. match goal with |- context [if ?c then _ else _] => destruct c eqn:C end.
  - split; auto. apply andb_true_iff in C as [C C4]. apply andb_true_iff in C as [C C3]. apply andb_true_iff in C as [C C2]. apply andb_true_iff in C as [C1 C5].
    assert (Ps : si_ptr s = Some p) by (unfold ptr_eqb in C1; destruct (si_ptr s); [apply Nat.eqb_eq in C1; congruence|discriminate]).
    split; auto. intros M. destruct (si_max s) as [x|] eqn:X; auto. exfalso. destruct (Hm Ps) as (m & E & L); [discriminate|].
    rewrite M in C4. cbn [vor] in C4. assert (x = m) by congruence. unfold SMAX in *. lia.
  - clear C. pose proof (mul_nt (si_mult s) (si_mult t)) as N1. destruct (fr_mul _ _) as [mult| |]; cbn [rbind]; [|congruence|auto].
    pose proof (mul_int_nt (si_mult t) (si_off s)) as N2. destruct (fr_mul_int _ _) as [f| |]; cbn [rbind]; [|congruence|auto].
    cbv zeta. change (match si_max t, si_max s with Some a, Some b => Some (Z.min a b) | Some a, None => Some a | None, b => b end) with (omax (si_max t) (si_max s)).
    set (scale := fun o : option Z => match o with
                                      | None => Ok None
                                      | Some x => rbind (if negb (fr_eq_int (si_mult t) 1) then rbind (fr_mul_int (si_mult t) x) (fun f => Ok (fr_ssize f)) else Ok x)
                                                        (fun x => Ok (Some (Z.max 0 (x + si_off t))))
                                      end).
    match goal with |- context [match ?l with Some x => rbind (if _ then rbind (fr_mul_int _ x) _ else Ok x) _ | None => Ok None end] =>
      change (match l with Some x => rbind (if negb (fr_eq_int (si_mult t) 1) then rbind (fr_mul_int (si_mult t) x) (fun f => Ok (fr_ssize f)) else Ok x)
                                                        (fun x => Ok (Some (Z.max 0 (x + si_off t)))) | None => Ok None end) with (scale l); set (mn0 := l) end.
    change (match omax (si_max t) (si_max s) with Some x => rbind (if negb (fr_eq_int (si_mult t) 1) then rbind (fr_mul_int (si_mult t) x) (fun f => Ok (fr_ssize f)) else Ok x)
                                                        (fun x => Ok (Some (Z.max 0 (x + si_off t)))) | None => Ok None end) with (scale (omax (si_max t) (si_max s))).
    assert (Sc : forall o, match scale o with Ok o' => o' = None <-> o = None | Throw => False | UB => True end).
    { intros [x|]; unfold scale; [|split; auto]. destruct (negb _); cbn [rbind]; [|split; discriminate].
      pose proof (mul_int_nt (si_mult t) x) as N. destruct (fr_mul_int _ x); cbn [rbind]; [split; discriminate|congruence|auto]. }
    pose proof (Sc mn0) as S1. destruct (scale mn0) as [mn| |]; cbn [rbind]; auto.
    pose proof (Sc (omax (si_max t) (si_max s))) as S2. destruct (scale (omax _ _)) as [mx| |]; cbn [rbind]; auto.
    rewrite omax_none in S2. destruct mn as [a|], mx as [b|]; try (destruct (a =? b)); cbn [si_ptr si_max]; auto.
Qed.

(** Every array on the way to the root. *)
Lemma own_max p s : (exists a, nth_error nodes p = Some (Some a) /\ forall n, a <> AFixed n) -> info ctx p = Ok s -> si_ptr s = Some p ->
  si_max s <> None -> exists m, si_max s = Some m /\ m < SMAX.
Proof.
  intros (a & E & N) I P M. destruct (W _ _ E) as [W1 W2]. unfold info in I. rewrite (proj2 (ctx_at _ _) E) in I. destruct a.
  - now destruct (N n).
  - injection I as <-. cbn in M |- *. destruct mx as [m|]; [|congruence]. eauto.
  - injection I as <-. cbn in M. congruence.
  - injection I as <-. cbn in M. congruence.
  - injection I as <-. cbn in M. congruence.
  - apply slice_info_max in I as [I _]. rewrite I in P. injection P as ->. destruct (W1 _ eq_refl). lia.
Qed.

Definition dyn (p : nat) : Prop := exists a, nth_error nodes p = Some (Some a) /\ forall n, a <> AFixed n.
Lemma dyn_parent id a p : nth_error nodes id = Some (Some a) -> parent a = Some p -> dyn p /\ (p < id)%nat.
Proof. intros E P. destruct (W _ _ E) as [H _]. destruct (H p P) as [L (b & B1 & B2)]. split; auto. now exists b. Qed.

Lemma substitute_max d : forall t p, dyn p -> si_ptr t = Some p ->
  match substitute ctx d t with
  | Ok j => (si_max j <> None -> si_max t <> None \/ capped nodes p) /\
            (si_max t <> None \/ (capped nodes p /\ (p < d)%nat) -> si_max j <> None)
  | Throw => False
  | UB => True
  end.
Proof.
  induction d as [|d IH]; intros t p D Pt; cbn [substitute].
  - split; [auto|]. intros [H|[_ H]]; [auto|lia].
  - destruct D as (a & E & N). destruct (info ctx p) as [s| |] eqn:I.
    2:{ exfalso. apply (info_nt p); congruence. }
    2:{ unfold subst1. rewrite Pt, I. cbn [rbind]. auto. }
    assert (Ow := own_max p s (ex_intro _ a (conj E N)) I). pose proof (subst1_cases t p s Pt I Ow) as C.
    destruct (subst1 ctx t) as [[t' b]| |]; cbn [rbind]; auto. destruct b.
    + destruct C as (-> & Ps & Cm). split; [auto|]. intros [H|[H _]]; auto. intros M. specialize (Cm M).
      destruct (proj1 (info_none p a s E N I Cm) H) as (q & Q & _).
      destruct (info_ptr p a s E N I) as [[_ X]|(q' & X & Y)]; [congruence|]. destruct (dyn_parent _ _ _ E X) as [_ L]. rewrite Ps in Y. injection Y as <-. lia.
    + destruct C as (Pp & Cm). destruct (info_ptr p a s E N I) as [[X Y]|(q & X & Y)].
      * rewrite X in Pp. specialize (IH t' p (ex_intro _ a (conj E N)) Pp). destruct (substitute ctx d t') as [j| |]; auto. destruct IH as [IH1 IH2].
        assert (Q : si_max s <> None <-> capped nodes p).
        { split.
          - intros H. unfold info in I. rewrite (proj2 (ctx_at _ _) E) in I. destruct a; try discriminate Y; try (injection I as <-; cbn in H; congruence).
            injection I as <-. cbn in H. destruct mx as [m|]; [|congruence]. now apply K_own with mn m.
          - intros H M. apply (proj1 (info_none p a s E N I M)) in H as (q & Q & _). congruence. }
        split.
        -- intros H. destruct (IH1 H) as [H'|H']; auto. destruct (si_max t) eqn:T; [left; discriminate|]. right. apply Q. intros M. apply H', Cm. auto.
        -- intros H. apply IH2. left. intros M. apply Cm in M as [M1 M2]. destruct H as [H|[H _]]; [auto|]. now apply Q in H.
      * destruct (dyn_parent _ _ _ E X) as [Dq L]. rewrite Y in Pp. specialize (IH t' q Dq Pp). destruct (substitute ctx d t') as [j| |]; auto. destruct IH as [IH1 IH2]. split.
        -- intros H. destruct (IH1 H) as [H'|H']; [|right; eapply K_up; eassumption]. destruct (si_max t) eqn:T; [left; discriminate|]. right.
           destruct (si_max s) as [m|] eqn:M; [|exfalso; apply H', Cm; auto].
           unfold info in I. rewrite (proj2 (ctx_at _ _) E) in I. destruct a; try discriminate X; try (injection I as <-; cbn in M; congruence).
           apply slice_info_max in I as [_ I]. eapply K_head; [eassumption|]. apply I. congruence.
        -- intros H. apply IH2. destruct (si_max t') eqn:T; [left; discriminate|]. right. destruct (proj1 Cm eq_refl) as [T1 T2]. destruct H as [H|[H Hd]]; [congruence|].
           split; [|lia]. apply (proj1 (info_none p a s E N I T2)) in H as (q' & Q & H). congruence.
Qed.

(** [state_size] of a dynamic array: a number if its size is limited, an exception otherwise. *)
Lemma array_size id a : nth_error nodes id = Some (Some a) -> (forall n, a <> AFixed n) ->
  (array_state_size nodes id = Throw -> ~ capped nodes id) /\ (forall b, array_state_size nodes id = Ok b -> capped nodes id).
Proof.
  intros E N. assert (L : (id < length nodes)%nat) by (apply nth_error_Some; congruence). assert (A : array_state_size nodes id =
    rbind (info ctx id) (fun i => rbind (if ptr_eqb (si_ptr i) (Some id) then Ok i else substitute ctx (length nodes) i) (fun i =>
    match si_max i with None => Throw | Some m => Ok (m * itemsize) end))).
  { unfold array_state_size. rewrite (proj2 (ctx_at _ _) E). destruct a; auto. now destruct (N n). }
  rewrite A. clear A. destruct (info ctx id) as [i| |] eqn:I; cbn [rbind].
  2:{ exfalso. apply (info_nt id); congruence. }
  2:{ split; [discriminate|]. intros b. discriminate. }
  destruct (info_ptr id a i E N I) as [[P Q]|(p & P & Q)].
  - rewrite P. cbn [ptr_eqb]. rewrite Nat.eqb_refl. cbn [rbind]. destruct (si_max i) as [m|] eqn:M.
    + split; [discriminate|]. intros b _. unfold info in I. rewrite (proj2 (ctx_at _ _) E) in I. destruct a; try discriminate Q; try (injection I as <-; cbn in M; congruence).
      injection I as <-. cbn in M. subst mx. eapply K_own. exact E.
    + split; [|discriminate]. intros _ C. apply (proj1 (info_none id a i E N I M)) in C as (q & X & _). congruence.
  - destruct (dyn_parent _ _ _ E P) as [D Lp]. rewrite Q. cbn [ptr_eqb]. destruct (Nat.eqb_spec p id); [lia|].
    pose proof (substitute_max (length nodes) i p D Q) as S. destruct (substitute ctx (length nodes) i) as [j| |]; cbn [rbind]; [|contradiction|split; [discriminate|intros ?; discriminate]].
    destruct S as [S1 S2]. destruct (si_max j) as [m|] eqn:M.
    + split; [discriminate|]. intros b _. destruct S1 as [H|H]; [discriminate| |now apply K_up with a p].
      unfold info in I. rewrite (proj2 (ctx_at _ _) E) in I. destruct a; try discriminate P; try (injection I as <-; cbn in H; congruence).
      apply slice_info_max in I as [_ I]. eapply K_head; [eassumption|]. now apply I.
    + split; [|discriminate]. intros _ C. apply S2; auto. destruct (si_max i) eqn:Mi; [left; discriminate|right]. split; [|lia].
      apply (proj1 (info_none id a i E N I Mi)) in C as (q & X & C). congruence.
Qed.
End Nodes.

Lemma total_bad nodes ids : forall z acc id, rfold (fun acc id => rbind (state_size nodes id) (fun b => Ok (acc + b))) acc ids = Ok z -> In id ids ->
  exists b, state_size nodes id = Ok b.
Proof.
  induction ids as [|i ids IH]; intros z acc id H Hi; [contradiction|]. cbn [rfold] in H. destruct (state_size nodes i) as [b| |] eqn:E; cbn [rbind] in H; try discriminate.
  destruct Hi as [->|Hi]; [eauto|]. eapply IH; eassumption.
Qed.
Lemma total_throw nodes ids : forall acc, (forall id, In id ids -> exists b, state_size nodes id = Ok b) ->
  rfold (fun acc id => rbind (state_size nodes id) (fun b => Ok (acc + b))) acc ids =
  Ok (acc + fold_right Z.add 0 (map (fun id => match state_size nodes id with Ok b => b | _ => 0 end) ids)).
Proof.
  induction ids as [|i ids IH]; intros acc H; cbn [rfold map fold_right]; [f_equal; lia|]. destruct (H i) as [b E]; [now left|]. rewrite E. cbn [rbind].
  rewrite IH; [f_equal; lia|]. intros id Hi. apply H. now right.
Qed.

