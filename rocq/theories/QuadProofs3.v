From Verif Require Import Base SliceModel ShapeModel StateDataModel NodeSpec BinaryModel Num QuadModel QuadSpec BinaryProofs QuadProofs QuadProofs2.
From Coq Require Import Sorting.Sorted.
Local Open Scope Qc_scope.

(** * Exporting and importing *)
Definition add_triple (b : biases) (t : nat * nat * Qc) : biases := at_quad (fst (fst t)) (snd (fst t)) (fun o => o + snd t) b.
Fixpoint tsum (l : list (nat * nat * Qc)) (i j : nat) : Qc :=
  match l with [] => 0 | t :: l' => (if same_pair (fst (fst t)) (snd (fst t)) i j then snd t else 0) + tsum l' i j end.
Lemma tsum_app l k i j : tsum (l ++ k) i j = tsum l i j + tsum k i j.
Proof. induction l as [|t l IH]; cbn [app tsum]; [ring|]. rewrite IH. ring. Qed.
Lemma fold_triples l : forall b i j, b_quad (fold_left add_triple l b) i j = b_quad b i j + tsum l i j.
Proof.
  induction l as [|t l IH]; intros b i j; cbn [fold_left tsum]; [ring|]. rewrite IH. cbn [add_triple at_quad b_quad].
  destruct (same_pair _ _ i j); ring.
Qed.
Lemma fold_triples_lin l : forall b, b_lin (fold_left add_triple l b) = b_lin b.
Proof. induction l as [|t l IH]; intros b; cbn [fold_left]; [reflexivity|]. now rewrite IH. Qed.

Definition qrow (m : qmodel) (i : nat) : list (nat * nat * Qc) :=
  match nth_error (qm_adj m) i with
  | Some a => flat_map (fun p => if (i <? fst p)%nat then [(i, fst p, snd p)] else []) (combine (nb_nbr a) (nb_bias a))
  | None => [] end.

Lemma row_sum k ns : forall bs i j, length bs = length ns -> NoDup ns -> (i < j)%nat ->
  tsum (flat_map (fun p => if (k <? fst p)%nat then [(k, fst p, snd p)] else []) (combine ns bs)) i j =
  if (k =? i)%nat then alook ns bs j else 0.
Proof.
  induction ns as [|x ns IH]; intros [|c bs] i j L D H; try discriminate L; cbn [combine flat_map tsum alook].
  - now destruct (k =? i)%nat.
  - inversion D as [|? ? D1 D2]; subst. rewrite tsum_app, IH by (auto; cbn in L; lia). cbn [fst snd].
    destruct (Nat.ltb_spec k x) as [Hk|Hk]; cbn [tsum fst snd].
    + unfold same_pair. destruct (Nat.eqb_spec k i) as [-> |Nk]; cbn [andb].
      * destruct (Nat.eqb_spec i j); [lia|]. cbn [andb orb]. rewrite Bool.orb_false_r.
        destruct (Nat.eqb_spec x j) as [-> |]; [rewrite alook_none by auto|]; ring.
      * destruct (Nat.eqb_spec k j) as [-> |]; cbn [andb orb]; [|ring]. destruct (Nat.eqb_spec x i); [lia|]. ring.
    + destruct (Nat.eqb_spec k i) as [-> |]; [|ring]. destruct (Nat.eqb_spec x j); [lia|]. ring.
Qed.

Lemma srt_nodup l : srt l -> NoDup l.
Proof.
  induction 1 as [|x l S IH F]; constructor; auto. intros I. rewrite Forall_forall in F. specialize (F x I). lia.
Qed.

Lemma rows_sum m n b i j : rep m n b -> (i < j)%nat -> (j < n)%nat -> tsum (get_quadratics m) i j = b_quad b i j.
Proof.
  intros [En Ll Ls La Rl Rs Rq Rm] H Hj. unfold get_quadratics. rewrite En. fold (qrow m).
  assert (G : forall k, (k <= n)%nat -> tsum (flat_map (qrow m) (seq 0 k)) i j = if (i <? k)%nat then b_quad b i j else 0).
  { induction k as [|k IH]; intros Hk; [reflexivity|]. rewrite seq_S, flat_map_app, tsum_app, IH by lia. cbn [flat_map Nat.add].
    rewrite app_nil_r. unfold qrow. destruct (nth_error (qm_adj m) k) as [a|] eqn:Ea; [|apply nth_error_None in Ea; lia].
    destruct (Rq k a Ea) as [[Srt L R C] A]. rewrite row_sum by auto using srt_nodup.
    destruct (Nat.eqb_spec k i) as [-> |].
    - rewrite (proj2 (Nat.ltb_ge i i)), (proj2 (Nat.ltb_lt i (S i))) by lia. rewrite A by lia. ring.
    - destruct (Nat.ltb_spec i k), (Nat.ltb_spec i (S k)); try lia; ring. }
  rewrite (G n (le_n n)). rewrite (proj2 (Nat.ltb_lt i n)) by lia. reflexivity.
Qed.

Lemma export_in m n b t : rep m n b -> In t (get_quadratics m) -> (fst (fst t) < snd (fst t) /\ snd (fst t) < n)%nat.
Proof.
  intros [En Ll Ls La Rl Rs Rq Rm] I. unfold get_quadratics in I. rewrite En in I. apply in_flat_map in I.
  destruct I as (k & Ik & I). apply in_seq in Ik. destruct (nth_error (qm_adj m) k) as [a|] eqn:Ea; [|contradiction I].
  destruct (Rq k a Ea) as [[Srt L R C] A]. apply in_flat_map in I. destruct I as ([x c] & Ip & I). cbn [fst snd] in I.
  destruct (Nat.ltb_spec k x); [|contradiction I]. destruct I as [<-|[]]. cbn [fst snd]. apply in_combine_l in Ip.
  rewrite Forall_forall in R. destruct (R x Ip). lia.
Qed.

Lemma export_rep m n b m0 : rep m n b -> rep m0 n no_biases -> (forall i j, b_quad b i j = b_quad b j i) ->
  exists m', rfold run_qop m0 [AddLins (get_linears m); AddSquares (get_squares m); AddQuads (get_quadratics m)] = Ok m' /\ rep m' n b.
Proof.
  intros R R0 S. pose proof R as [En Ll Ls La Rl Rs Rq Rm].
  destruct (run_qops_ok [AddLins (get_linears m); AddSquares (get_squares m); AddQuads (get_quadratics m)] m0 n no_biases R0) as (m' & E & R').
  { repeat constructor; cbn [qop_in].
    - unfold get_linears. rewrite firstn_length. lia.
    - unfold get_squares. rewrite firstn_length. lia.
    - apply Forall_forall. intros t I. pose proof (export_in m n b t R I). lia. }
  exists m'. split; [exact E|]. cbn [fold_left spec_qop no_biases b_lin b_quad] in R'.
  change (fold_left (fun b0 t => at_quad (fst (fst t)) (snd (fst t)) (fun o => o + snd t) b0)) with (fold_left add_triple) in R'.
  apply (rep_ext m' n _ b R').
  - intros i Hi. rewrite fold_triples_lin. cbn [b_lin]. rewrite (proj2 (Nat.ltb_lt i n)) by auto. unfold get_linears. rewrite En, firstn_all2 by lia.
    rewrite (nth_error_nth _ _ 0 (Rl i Hi)). ring.
  - assert (Lt : forall i j, (i < j)%nat -> (j < n)%nat -> b_quad (fold_left add_triple (get_quadratics m)
        {| b_lin := fun i0 => if (i0 <? n)%nat then 0 + nth i0 (get_linears m) 0 else 0;
           b_quad := fun i0 j0 => if ((i0 =? j0) && (i0 <? n))%nat then 0 + nth i0 (get_squares m) 0 else 0 |}) i j = b_quad b i j).
    { intros i j H Hj. rewrite fold_triples, (rows_sum m n b) by auto. cbn [b_quad]. destruct (Nat.eqb_spec i j); [lia|]. cbn [andb]. ring. }
    intros i j Hi Hj. destruct (lt_eq_lt_dec i j) as [[H|H]|H].
    + now apply Lt.
    + subst j. rewrite fold_triples. cbn [b_quad]. rewrite Nat.eqb_refl, (proj2 (Nat.ltb_lt i n)) by auto. cbn [andb].
      unfold get_squares. rewrite En, firstn_all2 by lia. rewrite (nth_error_nth _ _ 0 (Rs i Hi)).
      assert (T : forall l, (forall t, In t l -> fst (fst t) <> snd (fst t)) -> tsum l i i = 0).
      { induction l as [|t l IH]; intros Hl; cbn [tsum]; [reflexivity|]. rewrite IH by (intros; apply Hl; now right).
        rewrite same_pair_no by (apply Hl; now left). ring. }
      rewrite T; [ring|]. intros t I. pose proof (export_in m n b t R I). lia.
    + pose proof (spec_sym n [AddLins (get_linears m); AddSquares (get_squares m); AddQuads (get_quadratics m)] no_biases (fun _ _ => eq_refl) i j) as Y.
      cbn [fold_left spec_qop no_biases b_lin b_quad] in Y.
      change (fold_left (fun b0 t => at_quad (fst (fst t)) (snd (fst t)) (fun o => o + snd t) b0)) with (fold_left add_triple) in Y.
      etransitivity; [exact Y|]. rewrite (S i j). now apply Lt.
Qed.

(** * Counting interactions *)
Local Open Scope nat_scope.
Fixpoint nsumn (n : nat) (f : nat -> nat) : nat := match n with O => 0 | S k => nsumn k f + f k end.
Lemma nsumn_ext n f g : (forall i, i < n -> f i = g i) -> nsumn n f = nsumn n g.
Proof. induction n as [|n IH]; intros H; cbn [nsumn]; [reflexivity|]. now rewrite IH, H by auto. Qed.
Lemma nsumn_add n f g : nsumn n (fun i => f i + g i) = nsumn n f + nsumn n g.
Proof. induction n as [|n IH]; cbn [nsumn]; [reflexivity|]. rewrite IH. lia. Qed.
Lemma nsumn_swap n k f : nsumn n (fun i => nsumn k (f i)) = nsumn k (fun j => nsumn n (fun i => f i j)).
Proof.
  induction n as [|n IH]; cbn [nsumn]; [|now rewrite IH, <- nsumn_add].
  induction k as [|k IHk]; cbn [nsumn]; [reflexivity|]. now rewrite <- IHk.
Qed.
Definition mem (v : nat) (l : list nat) : bool := existsb (Nat.eqb v) l.
Lemma mem_in v l : mem v l = true <-> In v l.
Proof.
  unfold mem. rewrite existsb_exists. split.
  - intros (x & I & E). apply Nat.eqb_eq in E. now subst.
  - intros I. exists v. split; [exact I|]. apply Nat.eqb_refl.
Qed.
Lemma one_at n x g : x < n -> nsumn n (fun v => if v =? x then g v else 0) = g x.
Proof.
  induction n as [|n IH]; intros H; [lia|]. cbn [nsumn]. destruct (Nat.eqb_spec n x) as [-> |].
  - rewrite (nsumn_ext x _ (fun _ => 0)); [|intros v Hv; destruct (Nat.eqb_spec v x); [lia|reflexivity]].
    assert (Z : nsumn x (fun _ => 0) = 0) by (clear; induction x as [|x IH]; cbn [nsumn]; lia). lia.
  - rewrite IH by lia. lia.
Qed.
Lemma count_mem n p l : NoDup l -> Forall (fun v => v < n) l ->
  length (filter p l) = nsumn n (fun v => if p v && mem v l then 1 else 0).
Proof.
  induction 1 as [|x l N D IH]; intros F.
  - cbn [filter length]. rewrite (nsumn_ext n _ (fun _ => 0)); [|intros; cbn; now rewrite Bool.andb_false_r].
    clear. induction n; cbn [nsumn]; lia.
  - inversion F as [|? ? Hx F']; subst. specialize (IH F').
    rewrite (nsumn_ext n _ (fun v => (if p v && mem v l then 1 else 0) + (if v =? x then (if p v then 1 else 0) else 0))).
    + rewrite nsumn_add, <- IH, one_at by auto. cbn [filter]. destruct (p x); cbn [length]; lia.
    + intros v _. cbn [mem existsb]. fold (mem v l). destruct (Nat.eqb_spec v x) as [-> |]; cbn [orb].
      * destruct (mem x l) eqn:M; [apply mem_in in M; contradiction|]. destruct (p x); reflexivity.
      * destruct (p v); cbn [andb]; destruct (mem v l); reflexivity.
Qed.

Definition nbrs (m : qmodel) (i : nat) : list nat := match nth_error (qm_adj m) i with Some a => nb_nbr a | None => [] end.

Lemma interactions m n b : rep m n b -> length (get_quadratics m) = qm_interactions m.
Proof.
  intros [En Ll Ls La Rl Rs Rq Rm].
  assert (Row : forall i, i < n -> length (qrow m i) = nsumn n (fun v => if (i <? v) && mem v (nbrs m i) then 1 else 0)).
  { intros i Hi. unfold qrow, nbrs. destruct (nth_error (qm_adj m) i) as [a|] eqn:Ea; [|apply nth_error_None in Ea; lia].
    destruct (Rq i a Ea) as [[Srt L R C] A].
    rewrite <- (count_mem n (fun v => i <? v)); [|now apply srt_nodup|eapply Forall_impl; [|exact R]; cbn; tauto].
    clear -L. revert L. generalize (nb_bias a) as bs. generalize (nb_nbr a) as ns. induction ns as [|x ns IH]; intros [|c bs] L; try discriminate L; [reflexivity|].
    cbn [combine flat_map filter fst snd]. rewrite app_length, IH by (cbn in L; lia). destruct (i <? x); reflexivity. }
  assert (Sml : forall i a, nth_error (qm_adj m) i = Some a -> nb_small a = nsumn n (fun v => if (v <? i) && mem v (nbrs m i) then 1 else 0)).
  { intros i a Ea. destruct (Rq i a Ea) as [[Srt L R C] A]. rewrite C. unfold small. unfold nbrs. rewrite Ea.
    apply count_mem; [now apply srt_nodup|]. eapply Forall_impl; [|exact R]. cbn. tauto. }
  assert (Lh : length (get_quadratics m) = nsumn n (fun i => nsumn n (fun v => if (i <? v) && mem v (nbrs m i) then 1 else 0))).
  { unfold get_quadratics. rewrite En. fold (qrow m).
    assert (G : forall k, k <= n -> length (flat_map (qrow m) (seq 0 k)) = nsumn k (fun i => nsumn n (fun v => if (i <? v) && mem v (nbrs m i) then 1 else 0))).
    { induction k as [|k IH]; intros Hk; [reflexivity|]. rewrite seq_S, flat_map_app, app_length, IH by lia. cbn [flat_map Nat.add nsumn].
      rewrite app_nil_r, Row by lia. reflexivity. }
    now apply G. }
  assert (Rh : qm_interactions m = nsumn n (fun i => nsumn n (fun v => if (v <? i) && mem v (nbrs m i) then 1 else 0))).
  { unfold qm_interactions.
    assert (G : forall k acc, k <= n -> fold_left (fun k a => k + nb_small a) (firstn k (qm_adj m)) acc =
       acc + nsumn k (fun i => nsumn n (fun v => if (v <? i) && mem v (nbrs m i) then 1 else 0))).
    { induction k as [|k IH]; intros acc Hk; [cbn; lia|].
      destruct (nth_error (qm_adj m) k) as [a|] eqn:Ea; [|apply nth_error_None in Ea; lia].
      assert (Ef : firstn (S k) (qm_adj m) = firstn k (qm_adj m) ++ [a]).
      { clear -Ea. revert Ea. generalize (qm_adj m) as l. induction k as [|k IH]; intros [|x l] E; try discriminate E; cbn [nth_error firstn app] in *.
        - congruence. - f_equal. now apply IH. }
      rewrite Ef, fold_left_app, IH by lia. cbn [fold_left nsumn]. rewrite (Sml k a Ea). lia. }
    specialize (G n 0 (le_n n)). rewrite firstn_all2 in G by lia. exact G. }
  rewrite Lh, Rh, nsumn_swap. apply nsumn_ext. intros i Hi. apply nsumn_ext. intros j Hj.
  replace (mem i (nbrs m j)) with (mem j (nbrs m i)); [reflexivity|].
  unfold nbrs. destruct (nth_error (qm_adj m) i) as [a|] eqn:Ea; [|apply nth_error_None in Ea; lia].
  destruct (nth_error (qm_adj m) j) as [c|] eqn:Ec; [|apply nth_error_None in Ec; lia].
  apply Bool.eq_iff_eq_true. rewrite !mem_in. split; intros I.
  - now apply (Rm i j a c).
  - now apply (Rm j i c a).
Qed.
