From Verif Require Import Base SliceModel GraphModel GraphSpec GraphProofs GraphProofs2 GraphProofs3 LockModel LockSpec LockProofs LockProofs2 LockProofs3 IoModel IoSpec IoProofs.
From Coq Require Import Relations Permutation.

Section W.
Context {S : Type}.
Variable ninit : nat -> list S -> S.
Variable m : model S.
Hypothesis L : LI ninit m.
Hypothesis Lk : is_locked m = true.
Variable ninit' : nat -> list S -> S.
Variables kind kind' : nat -> nat.
Variable decides : nat -> bool.
Hypothesis Hk : forall n, In n (gnodes (mg m)) -> (decides (kind n) = true <-> In n (gdec (mg m))).
Notation D := (length (gdec (mg m))).
Notation N := (length (gnodes (mg m))).
Notation pos := (pos m).

Definition num_of (k : Z) : nat := Z.to_nat (Z.max 0 (Z.min (Z.of_nat (length (mstates m))) k)).
Definition stop_of (b : bool) : nat := if b then D else N.
Definition F (k i : nat) : option S := match nth_error (gnodes (mg m)) k with Some n => the_state m n i | None => None end.

Lemma D_le : D <= N. Proof. apply dec_le_nodes, (w_wf ninit m L). Qed.
Lemma stop_le b : D <= stop_of b <= N. Proof. pose proof D_le. destruct b; cbn [stop_of]; lia. Qed.

Lemma firstn_at {A} (l : list A) k i : i < k -> nth_error (firstn k l) i = nth_error l i.
Proof. intros H. rewrite nth_error_firstn. destruct (Nat.ltb_spec i k); [auto|lia]. Qed.

Definition states_list (num : nat) : list (nat * nat * S) :=
  flat_map (fun n => flat_map (fun i => match the_state m n i with Some x => [(Z.to_nat (topo m n), i, x)] | None => [] end) (seq 0 num))
           (firstn D (gnodes (mg m))).
Lemma in_states num k i x : In (k, i, x) (states_list num) <-> k < D /\ i < num /\ F k i = Some x.
Proof.
  unfold states_list, F. rewrite in_flat_map. split.
  - intros [n [Hn Hx]]. apply in_flat_map in Hx as [i' [Hi Hx]]. apply in_seq in Hi.
    destruct (the_state m n i') as [y|] eqn:E; [|destruct Hx]. destruct Hx as [Hx|[]].
    apply In_nth_error in Hn as [q Hq]. assert (Q : q < D).
    { assert (q < length (firstn D (gnodes (mg m)))) by (apply nth_error_Some; congruence). rewrite firstn_length in *. lia. }
    rewrite firstn_at in Hq by auto. rewrite (topo_at ninit m L Lk q n Hq) in Hx. rewrite Nat2Z.id in Hx.
    assert (E1 : k = q /\ i = i' /\ x = y) by (repeat split; congruence). destruct E1 as (-> & -> & ->). rewrite Hq. split; auto. split; [lia|auto].
  - intros (Hd & Hi & E). destruct (nth_error (gnodes (mg m)) k) as [n|] eqn:En; [|discriminate E].
    exists n. split. { apply nth_error_In with k. now rewrite firstn_at. }
    apply in_flat_map. exists i. split; [apply in_seq; lia|]. rewrite E. rewrite (topo_at ninit m L Lk k n En), Nat2Z.id. now left.
Qed.
Lemma find_states num t k i : t = Z.of_nat k -> k < D -> i < num ->
  find (fun '(k', j, _) => Z.eqb (Z.of_nat k') t && Nat.eqb j i) (states_list num) = match F k i with Some x => Some (k, i, x) | None => None end.
Proof.
  intros -> Hd Hi. destruct (find _ (states_list num)) as [[[k' j] y]|] eqn:Ef.
  - apply find_some in Ef as [Hin Hb]. apply andb_prop in Hb as [B1 B2]. apply Z.eqb_eq in B1. apply Nat.eqb_eq in B2.
    assert (k' = k) by lia. subst. apply in_states in Hin as (_ & _ & E). now rewrite E.
  - destruct (F k i) as [x|] eqn:E; auto. exfalso.
    assert (Hin : In (k, i, x) (states_list num)) by (apply in_states; auto).
    pose proof (find_none _ _ Ef _ Hin) as C. cbn beta iota in C. now rewrite Z.eqb_refl, Nat.eqb_refl in C.
Qed.

Lemma F_at k n i st : at_pos m k n -> nth_error (mstates m) i = Some st -> F k i = state_of (mg m) st n.
Proof. intros A E. unfold F. unfold at_pos in A. rewrite A. unfold the_state. rewrite E. reflexivity. Qed.

Lemma cons_list b : filter (fun t => (t <? Z.of_nat (stop_of b))%Z) (map (topo m) (gcons (mg m)))
  = map Z.of_nat (map pos (filter (fun n => existsb (Nat.eqb n) (firstn (stop_of b) (gnodes (mg m)))) (gcons (mg m)))).
Proof.
  pose proof (wf_cons _ (w_wf ninit m L)) as Hc. induction (gcons (mg m)) as [|n l IH]; [reflexivity|]. cbn [map filter].
  rewrite IH by (intros x Hx; apply Hc; now right). assert (Hn : In n (gnodes (mg m))) by (apply Hc; now left).
  rewrite (topo_in ninit m L Lk n Hn). pose proof (at_in ninit m L Lk n Hn) as A. unfold at_pos in A.
  assert (E : existsb (Nat.eqb n) (firstn (stop_of b) (gnodes (mg m))) = (Z.of_nat (pos n) <? Z.of_nat (stop_of b))%Z).
  { apply Bool.eq_iff_eq_true. rewrite existsb_In, Z.ltb_lt. split.
    - intros Hi. apply In_nth_error in Hi as [q Hq]. rewrite nth_error_firstn in Hq. destruct (Nat.ltb_spec q (stop_of b)); [|discriminate Hq].
      rewrite (pos_at ninit m L Lk q n Hq). lia.
    - intros Hi. apply nth_error_In with (pos n). rewrite firstn_at by lia. exact A. }
  rewrite E. destruct (Z.ltb_spec (Z.of_nat (pos n)) (Z.of_nat (stop_of b))); reflexivity.
Qed.

Lemma read_write k b : exists m', read ninit' kind' decides (write kind m k b) = Ok m' /\
  Built m ninit' kind' (stop_of b) (match gobj (mg m) with Some n => if pos n <? stop_of b then Some (pos n) else None | None => None end)
    (map pos (filter (fun n => existsb (Nat.eqb n) (firstn (stop_of b) (gnodes (mg m)))) (gcons (mg m)))) m' /\
  Loaded m F (num_of k) (mg m') (fun _ _ => true) (mstates m') (stop_of b).
Proof.
  pose proof (stop_le b) as Hst. pose proof (w_wf ninit m L) as Hwf.
  assert (Estop : (if b then num_decisions m else length (gnodes (mg m))) = stop_of b) by (destruct b; reflexivity).
  unfold read, write. cbn [a_kinds a_adj a_obj a_cons a_nstates a_states]. rewrite Estop.
  assert (B0 : Built m ninit' kind' 0 None [] m_empty).
  { constructor; auto.
    - apply (hist_LI ninit' kind' []). constructor.
    - intros i n Hi. lia.
    - exists []. constructor. }
  destruct (lines_ok ninit m L Lk ninit' kind kind' decides Hk (firstn (stop_of b) (gnodes (mg m))) 0 m_empty B0 eq_refl) as (m1 & E1 & B1 & S1).
  { intros i n Hi. cbn [Nat.add]. rewrite nth_error_firstn in Hi. destruct (i <? stop_of b); [exact Hi|discriminate Hi]. }
  change (Z.of_nat 0) with 0%Z in E1. rewrite E1. cbn [rbind]. cbn [Nat.add] in B1. rewrite firstn_length, Nat.min_l in B1 by lia. clear E1.
  set (obj := match gobj (mg m) with Some n => if pos n <? stop_of b then Some (pos n) else None | None => None end).
  assert (O : exists m2, match match gobj (mg m) with Some n => if (topo m n <? Z.of_nat (stop_of b))%Z then Some (topo m n) else None | None => None end with
         | Some id => if (id >=? Z.of_nat (length (gnodes (mg m1))))%Z then Throw else rbind (node_at m1 id) (fun n => perform ninit' kind' m1 (MObjective n))
         | None => Ok m1 end = Ok m2 /\ Built m ninit' kind' (stop_of b) obj [] m2 /\ mstates m2 = []).
  { unfold obj. destruct (gobj (mg m)) as [n|] eqn:Eo; [|eauto].
    assert (Hn := wf_obj _ Hwf n Eo). rewrite (topo_in ninit m L Lk n Hn).
    destruct (Z.ltb_spec (Z.of_nat (pos n)) (Z.of_nat (stop_of b))), (Nat.ltb_spec (pos n) (stop_of b)); try lia; [|eauto].
    rewrite (bu_n _ _ _ _ _ _ _ B1), seq_length. destruct (Z.geb_spec (Z.of_nat (pos n)) (Z.of_nat (stop_of b))); [lia|].
    rewrite (bu_at m Lk ninit' kind kind' decides Hk (stop_of b) None [] m1 (pos n) B1) by auto. cbn [rbind].
    destruct (obj_ok m Lk ninit' kind kind' decides Hk (stop_of b) m1 (pos n) B1) as (m2 & E & B2 & S2); auto. exists m2. split; auto. split; auto. congruence. }
  destruct O as (m2 & E2 & B2 & S2). rewrite E2. cbn [rbind]. clear E2.
  rewrite cons_list. set (cl := map pos (filter _ (gcons (mg m)))).
  destruct (cons_ok m Lk ninit' kind kind' decides Hk (stop_of b) obj cl [] m2 B2) as (m3 & E3 & B3 & S3).
  { intros i Hi. unfold cl in Hi. apply in_map_iff in Hi as [n [<- Hn]]. apply filter_In in Hn as [_ Hn]. apply existsb_In in Hn.
    apply In_nth_error in Hn as [q Hq]. rewrite nth_error_firstn in Hq. destruct (Nat.ltb_spec q (stop_of b)); [|discriminate Hq].
    now rewrite (pos_at ninit m L Lk q n Hq). }
  rewrite E3. cbn [rbind app] in *. clear E3. rewrite S2 in S3.
  set (z := Z.max 0 (Z.min (Z.of_nat (length (mstates m))) k)). destruct (Z.ltb_spec z 0) as [C|_]; [unfold z in C; lia|].
  fold (num_of k) in *. change (Z.to_nat z) with (num_of k).
  destruct (Z.ltb_spec 0 z) as [Hz|Hz].
  - unfold perform at 1. cbn [m_step].
    set (m4 := Model (mg m3) (mlocks m3) (vresize (num_of k) [] (mstates m3))).
    assert (E4 : m_step ninit' kind' m3 (MResize (num_of k)) = Some (m4, true)) by reflexivity.
    assert (L4 := LI_step ninit' kind' m3 (MResize (num_of k)) m4 true (bu_li _ _ _ _ _ _ _ B3) I E4).
    assert (H4 := perform_hist ninit' kind' m3 (MResize (num_of k)) m4 (bu_h _ _ _ _ _ _ _ B3) I ltac:(unfold perform; rewrite E4; reflexivity)).
    assert (B4 : Built m ninit' kind' (stop_of b) obj cl m4) by (destruct B3; constructor; auto).
    cbn [rbind].
    assert (Ed : firstn (num_decisions m4) (gnodes (mg m4)) = seq 0 D).
    { unfold num_decisions. rewrite (bu_n _ _ _ _ _ _ _ B4), (bu_d _ _ _ _ _ _ _ B4), seq_length, Nat.min_r by lia.
      replace (stop_of b) with (D + (stop_of b - D)) by lia. rewrite seq_app, firstn_app, seq_length, Nat.sub_diag. cbn [firstn].
      rewrite app_nil_r. rewrite <- (seq_length D 0) at 1. apply firstn_all. }
    rewrite Ed. fold (states_list (num_of k)).
    destruct (load_all m Lk ninit' kind kind' decides Hk F (num_of k)
       (fun m0 n i => find (fun '(k', j, _) => Z.eqb (Z.of_nat k') (topo m0 n) && Nat.eqb j i) (states_list (num_of k)))
       (stop_of b) obj cl) with (l := seq 0 D) (done := fun _ _ : nat => false) (m' := m4) as (m5 & E5 & B5 & G5 & L5); auto; try lia.
    + intros m0 n i B Hn Hi. apply find_states; auto. unfold topo. apply (wf_dt _ (inc_wf _ (li_inc _ _ (bu_li _ _ _ _ _ _ _ B)))).
      rewrite (bu_d _ _ _ _ _ _ _ B), Nat.min_r by lia. rewrite (nth_error_nth' _ 0) by (rewrite seq_length; lia). now rewrite seq_nth.
    + apply seq_NoDup.
    + intros n Hn. apply in_seq in Hn. lia.
    + split; [apply vresize_length|]. intros i st q Hs Hq. rewrite andb_false_r. unfold m4 in Hs. cbn [mstates] in Hs.
      rewrite S3 in Hs. unfold vresize in Hs. rewrite firstn_nil in Hs. cbn [app length] in Hs. apply nth_error_In, repeat_spec in Hs. subst st.
      unfold state_of. destruct (tidx _ _); auto. now destruct n.
    + exists m5. split; [exact E5|]. split; auto. destruct L5 as [Q1 Q2]. split; auto. intros i st q Hs Hq. rewrite (Q2 i st q Hs Hq).
      destruct (Nat.ltb_spec q D) as [Hqd|]; auto. cbn [orb]. assert (X : existsb (Nat.eqb q) (seq 0 D) = true) by (apply existsb_In, in_seq; lia). now rewrite X.
  - exists m3. split; auto. split; auto. assert (Z0 : num_of k = 0) by (unfold num_of; fold z; lia). rewrite Z0, S3. split; auto.
    intros i st q Hs. destruct i; discriminate Hs.
Qed.

Lemma built_same k b m' : Built m ninit' kind' (stop_of b) (match gobj (mg m) with Some n => if pos n <? stop_of b then Some (pos n) else None | None => None end)
    (map pos (filter (fun n => existsb (Nat.eqb n) (firstn (stop_of b) (gnodes (mg m)))) (gcons (mg m)))) m' ->
  Loaded m F (num_of k) (mg m') (fun _ _ => true) (mstates m') (stop_of b) -> same_model m m' (stop_of b) (num_of k).
Proof.
  intros B [Q1 Q2]. pose proof (stop_le b) as Hst. pose proof (w_wf ninit m L) as Hwf. constructor; auto.
  - apply B.
  - rewrite (bu_d _ _ _ _ _ _ _ B). f_equal. lia.
  - intros i n Hi A. rewrite (bu_p _ _ _ _ _ _ _ B i n Hi A).
    assert (P := at_pred ninit m L Lk i n). specialize (fun p => P p A). induction (oget (gpred (mg m)) n) as [|p l IH]; constructor.
    + apply (at_in ninit m L Lk). apply P. now left.
    + apply IH. intros q Hq. apply P. now right.
  - intros i. rewrite (bu_o _ _ _ _ _ _ _ B). destruct (gobj (mg m)) as [n|] eqn:Eo.
    + assert (A := at_in ninit m L Lk n (wf_obj _ Hwf n Eo)). destruct (Nat.ltb_spec (pos n) (stop_of b)) as [Hp|Hp]; split.
      * intros E. assert (pos n = i) by congruence. subst i. eauto.
      * intros (_ & n' & A' & E). assert (n' = n) by congruence. subst. now rewrite (pos_at ninit m L Lk i n A').
      * discriminate.
      * intros (Hi & n' & A' & E). assert (n' = n) by congruence. subst. rewrite (pos_at ninit m L Lk i n A') in Hp. lia.
    + split; [discriminate|]. intros (_ & n & _ & C). discriminate C.
  - rewrite (bu_c _ _ _ _ _ _ _ B). eexists. split; [|reflexivity].
    assert (Hf : forall n, In n (filter (fun n => existsb (Nat.eqb n) (firstn (stop_of b) (gnodes (mg m)))) (gcons (mg m))) -> at_pos m (pos n) n /\ pos n < stop_of b).
    { intros n Hn. apply filter_In in Hn as [_ Hn]. apply existsb_In in Hn. apply In_nth_error in Hn as [q Hq]. rewrite nth_error_firstn in Hq.
      destruct (Nat.ltb_spec q (stop_of b)); [|discriminate Hq]. rewrite (pos_at ninit m L Lk q n Hq). auto. }
    clear B. revert Hf. induction (filter _ (gcons (mg m))) as [|n l IH]; intros Hf; cbn [map]; [constructor|].
    constructor; [apply Hf; now left|apply IH; intros; apply Hf; now right].
  - intros i q n st st' A Hq E E'. rewrite (Q2 i st' q E' Hq), andb_true_r. destruct (q <? D); auto. now apply F_at.
Qed.

Lemma nodes_map {A} (f g : nat -> A) j : j <= N -> (forall i n, i < j -> at_pos m i n -> f i = g n) -> map f (seq 0 j) = map g (firstn j (gnodes (mg m))).
Proof.
  intros Hj H. apply nth_error_ext. intros i. rewrite !nth_error_map, nth_error_firstn.
  destruct (Nat.ltb_spec i j) as [Hi|Hi].
  - destruct (nth_error (gnodes (mg m)) i) as [n|] eqn:E; [|apply nth_error_None in E; lia].
    rewrite (nth_error_nth' (seq 0 j) 0) by (rewrite seq_length; lia). rewrite seq_nth by lia. cbn [option_map Nat.add]. f_equal. now apply H.
  - assert (E : nth_error (seq 0 j) i = None) by (apply nth_error_None; rewrite seq_length; lia). now rewrite E.
Qed.

Lemma write_again k b m' : Built m ninit' kind' (stop_of b) (match gobj (mg m) with Some n => if pos n <? stop_of b then Some (pos n) else None | None => None end)
    (map pos (filter (fun n => existsb (Nat.eqb n) (firstn (stop_of b) (gnodes (mg m)))) (gcons (mg m)))) m' ->
  Loaded m F (num_of k) (mg m') (fun _ _ => true) (mstates m') (stop_of b) ->
  (forall i n, i < stop_of b -> at_pos m i n -> kind' i = kind n) ->
  exists m'', lock m' = Some (m'', true) /\ write kind' m'' k b = write kind m k b.
Proof.
  intros B [Q1 Q2] Hkk. pose proof (stop_le b) as Hst. pose proof (w_wf ninit m L) as Hwf.
  pose proof (li_inc _ _ (bu_li _ _ _ _ _ _ _ B)) as Hi. pose proof (inc_wf _ Hi) as Hwf'.
  destruct (sort_Inc _ Hi (bu_s _ _ _ _ _ _ _ B)) as (tp & E & _ & _ & _ & _ & Ht).
  assert (Ed : gdec (mg m') = seq 0 D) by (rewrite (bu_d _ _ _ _ _ _ _ B); f_equal; lia).
  assert (Eo : gdec (mg m') ++ nondec (mg m') = seq 0 (stop_of b)).
  { unfold nondec. rewrite (bu_n _ _ _ _ _ _ _ B). replace (stop_of b) with (D + (stop_of b - D)) by lia. rewrite seq_app, filter_app.
    rewrite filter_nil, filter_noop.
    - now rewrite Ed.
    - intros x Hx. apply in_seq in Hx. destruct (is_decision (mg m') x) eqn:Ex; auto. apply is_dec_spec in Ex. rewrite Ed in Ex. apply in_seq in Ex. lia.
    - intros x Hx. assert (Ex : is_decision (mg m') x = true) by (apply is_dec_spec; now rewrite Ed). now rewrite Ex. }
  rewrite Eo in E, Ht.
  assert (Hkey : forall i, i < stop_of b -> tkey tp i = Z.of_nat i).
  { intros i H. apply Ht. rewrite (nth_error_nth' _ 0) by (rewrite seq_length; lia). now rewrite seq_nth. }
  unfold lock. rewrite E. eexists. split; [reflexivity|].
  set (m'' := Model _ _ _).
  assert (Htopo : forall i, i < stop_of b -> topo m'' i = Z.of_nat i) by exact Hkey.
  unfold write.
  assert (E1 : (if b then num_decisions m'' else length (gnodes (mg m''))) = stop_of b).
  { unfold m'', num_decisions. cbn [mg with_order gdec gnodes]. rewrite Ed, !seq_length. destruct b; reflexivity. }
  assert (E2 : (if b then num_decisions m else length (gnodes (mg m))) = stop_of b) by (destruct b; reflexivity).
  rewrite E1, E2.
  assert (En : firstn (stop_of b) (gnodes (mg m'')) = seq 0 (stop_of b)).
  { unfold m''. cbn [mg with_order gnodes]. rewrite <- (seq_length (stop_of b) 0) at 1. apply firstn_all. }
  assert (End : firstn (num_decisions m'') (gnodes (mg m'')) = seq 0 D).
  { unfold m'', num_decisions. cbn [mg with_order gnodes gdec]. rewrite Ed, seq_length. replace (stop_of b) with (D + (stop_of b - D)) by lia.
    rewrite seq_app, firstn_app, seq_length, Nat.sub_diag. cbn [firstn]. rewrite app_nil_r. rewrite <- (seq_length D 0) at 1. apply firstn_all. }
  rewrite En, End.
  set (z := Z.max 0 (Z.min (Z.of_nat (length (mstates m))) k)).
  assert (Ez : Z.max 0 (Z.min (Z.of_nat (length (mstates m''))) k) = z).
  { unfold m''. cbn [mstates]. rewrite Q1. unfold num_of, z. lia. }
  rewrite Ez. change (num_decisions m) with D. f_equal.
  - apply nodes_map; [lia|]. auto.
  - apply nodes_map; [lia|]. intros i n H A. rewrite (Htopo i H), (topo_at ninit m L Lk i n A). f_equal.
    unfold m''. cbn [mg with_order gpred]. rewrite (bu_p _ _ _ _ _ _ _ B i n H A). rewrite map_map. apply map_ext_in. intros p Hp.
    destruct (at_pred ninit m L Lk i n p A Hp) as [Hpn Hpl]. change (topo m'' (pos p) = topo m p). rewrite (topo_in ninit m L Lk p Hpn). apply Htopo. lia.
  - change (gobj (mg m'')) with (gobj (mg m')). rewrite (bu_o _ _ _ _ _ _ _ B). destruct (gobj (mg m)) as [n|] eqn:Eob; auto.
    rewrite (topo_in ninit m L Lk n (wf_obj _ Hwf n Eob)). destruct (Nat.ltb_spec (pos n) (stop_of b)) as [H|H].
    + rewrite (Htopo _ H). reflexivity.
    + destruct (Z.ltb_spec (Z.of_nat (pos n)) (Z.of_nat (stop_of b))); [lia|reflexivity].
  - rewrite cons_list. change (gcons (mg m'')) with (gcons (mg m')). rewrite (bu_c _ _ _ _ _ _ _ B).
    assert (Hf : forall i, In i (map pos (filter (fun n => existsb (Nat.eqb n) (firstn (stop_of b) (gnodes (mg m)))) (gcons (mg m)))) -> i < stop_of b).
    { intros i H. apply in_map_iff in H as [n [<- Hn]]. apply filter_In in Hn as [_ Hn]. apply existsb_In in Hn. apply In_nth_error in Hn as [q Hq]. rewrite nth_error_firstn in Hq.
      destruct (Nat.ltb_spec q (stop_of b)); [|discriminate Hq]. now rewrite (pos_at ninit m L Lk q n Hq). }
    clear B. revert Hf. induction (map pos _) as [|i l IH]; intros Hf; [reflexivity|]. cbn [map filter].
    rewrite IH by (intros; apply Hf; now right). assert (H := Hf i (or_introl eq_refl)). rewrite (Htopo i H).
    destruct (Z.ltb_spec (Z.of_nat i) (Z.of_nat (stop_of b))); [reflexivity|lia].
  - rewrite !flat_map_concat_map. f_equal. apply nodes_map; [lia|]. intros q n Hq A. rewrite !flat_map_concat_map. f_equal. apply map_ext_in. intros i Hin. apply in_seq in Hin.
    change (Z.to_nat z) with (num_of k) in Hin.
    assert (Est : the_state m'' q i = the_state m n i).
    { assert (El : length (mstates m') = num_of k) by exact Q1. unfold the_state at 1. change (mstates m'') with (mstates m').
      destruct (nth_error (mstates m') i) as [st|] eqn:Es; [|apply nth_error_None in Es; lia].
      assert (Fq : F q i = the_state m n i) by (unfold F; unfold at_pos in A; now rewrite A). rewrite <- Fq.
      assert (X := Q2 i st q Es ltac:(lia)). rewrite andb_true_r in X. destruct (Nat.ltb_spec q D); [|lia]. rewrite <- X.
      unfold stored, state_of, index_of. assert (T1 : tidx (mg m') q = Some q).
      { apply tidx_dec; auto. rewrite Ed. rewrite (nth_error_nth' _ 0) by (rewrite seq_length; lia). now rewrite seq_nth. }
      assert (T2 : tidx (mg m'') q = Some q).
      { assert (W2 : WF (mg m'')) by (eapply sort_WF; [exact Hwf'|]; exact E). apply tidx_dec; auto. unfold m''. cbn [mg with_order gdec]. rewrite Ed.
        rewrite (nth_error_nth' _ 0) by (rewrite seq_length; lia). now rewrite seq_nth. }
      now rewrite T1, T2. }
    rewrite Est, (Htopo q) by lia. now rewrite (topo_at ninit m L Lk q n A).
Qed.
End W.
