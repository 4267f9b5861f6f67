(** Reading a file makes the symbols again, one by one. *)
From Verif Require Import Base Num SliceModel ShapeModel StateDataModel NodeSpec BinaryModel BasicModel ViewModel ElemModel NaryModel
  ReduceModel BoundsModel PermModel AdvModel GraphSpec PyModel PySpec EqModel FileModel FileSpec FileProofs FileProofs2 FileProofs3.
From Coq Require Import Permutation.
Local Open Scope Z_scope.

Lemma pos_at ord x : In x ord -> nth_error ord (pos ord x) = Some x.
Proof.
  induction ord as [|y t IH]; intros H; [destruct H|]. cbn [pos]. destruct (Nat.eqb_spec y x) as [->|N]; [reflexivity|]. cbn [nth_error]. apply IH. destruct H; [contradiction|auto].
Qed.
Lemma at_pos ord x i : NoDup ord -> nth_error ord i = Some x -> pos ord x = i.
Proof.
  intros N H. assert (I : In x ord) by (eapply nth_error_In; eauto). apply pos_at in I. eapply NoDup_nth_error; eauto; [|congruence].
  apply nth_error_Some. congruence.
Qed.
Lemma before_in l a b : before l a b -> In a l /\ In b l.
Proof. intros (l1 & l2 & l3 & ->). split; apply in_or_app; right; [now left|right; apply in_or_app; right; now left]. Qed.
Lemma before_pos l a b : NoDup l -> before l a b -> (pos l a < pos l b)%nat.
Proof.
  intros N (l1 & l2 & l3 & ->).
  rewrite (at_pos _ a (length l1)); auto; [|now rewrite nth_error_app2, Nat.sub_diag by lia].
  rewrite (at_pos _ b (length l1 + S (length l2))); auto; [lia|].
  rewrite nth_error_app2 by lia. replace (length l1 + S (length l2) - length l1)%nat with (S (length l2)) by lia. cbn [nth_error]. now rewrite nth_error_app2, Nat.sub_diag by lia.
Qed.

Lemma map_nodup {A B} (f : A -> B) l : (forall a b, In a l -> In b l -> f a = f b -> a = b) -> NoDup l -> NoDup (map f l).
Proof.
  intros H N. induction N as [|a l I N IH]; cbn [map]; constructor.
  - rewrite in_map_iff. intros (b & E & Ib). assert (b = a) by (apply H; auto; [now right|now left]). now subst.
  - apply IH. intros; apply H; auto; now right.
Qed.

Section Read.
Variables (m : pym) (ord : list nat).
Hypothesis Im : inv m.
Hypothesis Lg : legal m ord.
Hypothesis Vw : views_inferable m.
Let topo := pos ord.

Lemma ord_nodup : NoDup ord.
Proof. eapply Permutation_NoDup; [apply Permutation_sym, (lg_all _ _ Lg)|apply seq_NoDup]. Qed.
Lemma ord_in x s : nth_error (p_syms m) x = Some s -> In x ord.
Proof.
  intros H. eapply Permutation_in; [apply Permutation_sym, (lg_all _ _ Lg)|]. apply in_seq. split; [lia|]. cbn. apply nth_error_Some. congruence.
Qed.
Lemma ord_some x : In x ord -> exists s, nth_error (p_syms m) x = Some s.
Proof.
  intros H. apply (Permutation_in _ (lg_all _ _ Lg)) in H. apply in_seq in H. destruct (nth_error (p_syms m) x) eqn:E; [eauto|]. apply nth_error_None in E. lia.
Qed.
Lemma topo_inj x y : In x ord -> In y ord -> topo x = topo y -> x = y.
Proof. intros A B E. apply pos_at in A, B. unfold topo in E. rewrite E in A. congruence. Qed.

Definition same (s t : sym) : Prop :=
  same_op ord (shape_at m (hd 0%nat (s_pred s))) (s_cls s) (s_cls t) /\ s_pred t = map topo (s_pred s) /\ s_shape t = s_shape s /\ s_contig t = s_contig s.
Definition R (q : nat) (m' : pym) : Prop :=
  length (p_syms m') = q /\
  forall x i, nth_error ord i = Some x -> (i < q)%nat -> exists s t, nth_error (p_syms m) x = Some s /\ nth_error (p_syms m') i = Some t /\ same s t.

Lemma same_op_array sh c d : same_op ord sh c d -> is_array_symbol d = is_array_symbol c.
Proof. destruct c, d; cbn; intros H; congruence || reflexivity. Qed.
Lemma same_op_const sh c d : same_op ord sh c d -> match d with KConst _ => true | _ => false end = match c with KConst _ => true | _ => false end.
Proof. destruct c, d; cbn; intros H; congruence || reflexivity. Qed.
Lemma same_op_refl sh c : part_of c = None -> same_op ord sh c c.
Proof. destruct c; cbn; auto; discriminate. Qed.

Section At.
Variables (q : nat) (m' : pym).
Hypothesis Rq : R q m'.
Lemma mate p s : nth_error (p_syms m) p = Some s -> (topo p < q)%nat -> exists t, nth_error (p_syms m') (topo p) = Some t /\ same s t.
Proof.
  intros S L. pose proof (ord_in _ _ S) as I. apply pos_at in I. destruct (proj2 Rq _ _ I L) as (s' & t & S' & T & M). assert (s' = s) by congruence. subst. eauto.
Qed.
Lemma mate_arr p : arr m p -> (topo p < q)%nat -> arr m' (topo p).
Proof. intros (s & S & A) L. destruct (mate p s S L) as (t & T & M & _). exists t. split; auto. rewrite (same_op_array _ _ _ M). exact A. Qed.
Lemma mate_shape p : arr m p -> (topo p < q)%nat -> shape_at m' (topo p) = shape_at m p.
Proof. intros (s & S & A) L. destruct (mate p s S L) as (t & T & _ & _ & Sh & _). now rewrite (shape_at_some _ _ _ S), (shape_at_some _ _ _ T). Qed.
Lemma mate_contig p : arr m p -> (topo p < q)%nat -> contig_at m' (topo p) = contig_at m p.
Proof. intros (s & S & A) L. destruct (mate p s S L) as (t & T & _ & _ & _ & C). now rewrite (contig_at_some _ _ _ S), (contig_at_some _ _ _ T). Qed.
Lemma mate_const p : arr m p -> (topo p < q)%nat -> const_at m' (topo p) = const_at m p.
Proof. intros (s & S & A) L. destruct (mate p s S L) as (t & T & M & _). rewrite (const_at_some _ _ _ S), (const_at_some _ _ _ T). eapply same_op_const; eauto. Qed.

Variables (x : nat) (s : sym).
Hypothesis Hx : nth_error ord q = Some x.
Hypothesis Hs : nth_error (p_syms m) x = Some s.
Lemma pos_x : topo x = q.
Proof. apply at_pos; [apply ord_nodup|exact Hx]. Qed.
Lemma pred_before p : In p (s_pred s) -> (topo p < q)%nat.
Proof. intros I. rewrite <- pos_x. apply before_pos; [apply ord_nodup|]. eapply lg_pred; eauto. Qed.

(** The next symbol. *)
Lemma R_emit c' : same_op ord (shape_at m (hd 0%nat (s_pred s))) (s_cls s) c' ->
  exists m'', emit c' (map topo (s_pred s)) (s_shape s) (s_contig s) m' = Ok (q, m'') /\ R (S q) m'' /\ p_obj m'' = p_obj m' /\ p_cons m'' = p_cons m'.
Proof.
  intros H. destruct Rq as [L G]. unfold emit. rewrite L. eexists. split; [reflexivity|]. split; [|split; reflexivity]. split; [cbn [p_syms]; rewrite app_length; cbn; lia|].
  intros y i Hy Hi. destruct (Nat.eq_dec i q) as [->|N].
  - assert (y = x) by congruence. subst y. exists s. eexists. split; [exact Hs|]. cbn [p_syms]. rewrite nth_error_app2 by lia. rewrite L, Nat.sub_diag. split; [reflexivity|].
    split; [exact H|]. repeat split; reflexivity.
  - destruct (G y i Hy ltac:(lia)) as (s' & t & A & B & C). exists s', t. split; auto. split; auto. cbn [p_syms]. rewrite nth_error_app1; [auto|]. apply nth_error_Some. congruence.
Qed.

(** How many parts of a decision there are so far. *)
Lemma succ_len main i : part_of (s_cls s) = Some (main, i) -> x = (main + S i)%nat -> s_pred s = [main] ->
  (exists t, nth_error (p_syms m) main = Some t /\ is_array_symbol (s_cls t) = false) ->
  (forall j, (j < i)%nat -> exists t, nth_error (p_syms m) (main + S j) = Some t /\ part_of (s_cls t) = Some (main, j) /\ s_pred t = [main]) ->
  length (successors m' (topo main)) = i.
Proof.
  intros P Ex Ep (tm & Tm & Am) Hk. rewrite <- (seq_length i 0), <- (map_length (fun j => topo (main + S j)) (seq 0 i)). apply Permutation_length. apply NoDup_Permutation.
  - unfold successors. apply NoDup_filter, seq_NoDup.
  - apply map_nodup; [|apply seq_NoDup]. intros a b Ha Hb E. apply in_seq in Ha, Hb. apply topo_inj in E; [lia| |].
    + destruct (Hk a ltac:(lia)) as (t & T & _). eapply ord_in; eauto.
    + destruct (Hk b ltac:(lia)) as (t & T & _). eapply ord_in; eauto.
  - intros z. unfold successors. rewrite filter_In, in_seq, in_map_iff. destruct Rq as [L G]. rewrite L. split.
    + intros [[_ Hz] E]. destruct (nth_error (p_syms m') z) as [t|] eqn:T; [|discriminate E]. apply existsb_exists in E as (w & Iw & Ew). apply Nat.eqb_eq in Ew. subst w.
      destruct (nth_error ord z) as [y|] eqn:Y.
      2:{ exfalso. apply nth_error_None in Y. assert (q < length ord)%nat by (apply nth_error_Some; congruence). cbn in Hz. lia. }
      destruct (G y z Y ltac:(cbn in Hz; lia)) as (sy & ty & Sy & Ty & M). assert (ty = t) by congruence. subst ty. destruct M as (_ & Mp & _). rewrite Mp in Iw. apply in_map_iff in Iw as (p & Ep' & Ip).
      assert (p = main). { apply topo_inj; [exact (proj1 (before_in _ _ _ (lg_pred _ _ Lg _ _ _ Sy Ip)))|eapply ord_in; exact Tm|exact Ep']. } subst p.
      assert (F : exists j, part_of (s_cls sy) = Some (main, j) /\ y = (main + S j)%nat).
      { pose proof (proj1 Im _ _ Sy) as F. unfold fine in F.
        assert (NA : ~ Forall (arr m) (s_pred sy)). { intros FA. rewrite Forall_forall in FA. destruct (FA _ Ip) as (t0 & T0 & A0). congruence. }
        destruct (s_cls sy); try (destruct F as [F _]; rewrite F in Ip; destruct Ip; fail); try (destruct F as [F _]; contradiction); try (destruct F; fail);
          destruct F as (F & _ & _ & _ & Fx & _); rewrite F in Ip; destruct Ip as [->|[]]; cbn; eauto. }
      destruct F as (j & Pj & Ey). exists j. apply at_pos in Y; [|apply ord_nodup]. fold topo in Y. split; [congruence|]. apply in_seq. split; [lia|]. cbn. cbn in Hz.
      destruct (Nat.lt_trichotomy j i) as [H|[H|H]]; auto.
      * exfalso. subst j. assert (Exy : y = x) by congruence. pose proof pos_x as PX. rewrite Exy in Y. unfold topo in *. lia.
      * exfalso. assert (B : before ord x y) by (eapply lg_part; [exact Lg|exact Hs|exact Sy|eassumption..]). apply before_pos in B; [|apply ord_nodup]. pose proof pos_x. unfold topo in *. lia.
    + intros (j & Ez & Hj). apply in_seq in Hj. cbn in Hj. destruct (Hk j ltac:(lia)) as (t & T & Pt & Et).
      assert (B : before ord (main + S j) x) by (eapply lg_part; [exact Lg|exact T|exact Hs|eassumption|eassumption|lia]). apply before_pos in B; [|apply ord_nodup]. fold topo in B. rewrite pos_x in B.
      split; [split; lia|]. subst z. destruct (mate _ _ T B) as (u & U & _ & Up & _). rewrite U, Up, Et. cbn [map existsb]. now rewrite Nat.eqb_refl.
Qed.

(** A symbol's entry, and what is made of it. *)
Definition step_ok : Prop :=
  exists w c', into_zipfile m topo s = Ok w /\ same_op ord (shape_at m (hd 0%nat (s_pred s))) (s_cls s) c' /\
    from_zipfile (Entry (type_of (s_cls s)) (map topo (s_pred s)) w) m' = emit c' (map topo (s_pred s)) (s_shape s) (s_contig s) m'.
Lemma looked p : arr m p -> (topo p < q)%nat -> exists t, look (topo p) m' = Ok (t, m') /\ nth_error (p_syms m') (topo p) = Some t /\
  s_shape t = shape_at m p /\ s_contig t = contig_at m p /\ match s_cls t with KConst _ => true | _ => false end = const_at m p.
Proof.
  intros A L. pose proof (mate_shape p A L) as H1. pose proof (mate_contig p A L) as H2. pose proof (mate_const p A L) as H3. destruct (mate_arr p A L) as (t & T & _).
  exists t. unfold look. rewrite T. rewrite (shape_at_some _ _ _ T) in H1. rewrite (contig_at_some _ _ _ T) in H2. rewrite (const_at_some _ _ _ T) in H3. auto.
Qed.
Lemma looked_all ps : Forall (arr m) ps -> (forall p, In p ps -> (topo p < q)%nat) -> exists ts, looks (map topo ps) m' = Ok (ts, m') /\ map s_shape ts = map (shape_at m) ps.
Proof.
  induction 1 as [|p ps A F IH]; intros L; [exists []; auto|]. destruct IH as (ts & E & M); [intros; apply L; now right|]. destruct (looked p A (L p (or_introl eq_refl))) as (t & T & _ & Sh & _).
  exists (t :: ts). cbn [map looks]. unfold bind. rewrite T, E. split; [reflexivity|]. cbn [map]. congruence.
Qed.
Lemma arrs_all ps : Forall (arr m) ps -> (forall p, In p ps -> (topo p < q)%nat) -> Forall (arr m') (map topo ps).
Proof. induction 1 as [|p ps A F IH]; intros L; cbn [map]; constructor; [apply mate_arr; auto; apply L; now left|apply IH; intros; apply L; now right]. Qed.
Lemma all_before : forall p, In p (s_pred s) -> (topo p < q)%nat.
Proof. exact pred_before. Qed.

(** The indices of advanced indexing. *)
Definition rename (i : pyidx) : pyidx := match i with PArr y => PArr (topo y) | _ => full end.
Lemma adv_written ix ai : forall f, rmap (aix f) ix = Ok ai ->
  exists l, adv_indices topo (map is_arr ai) (arrays ix) = Ok l /\ map (fun i => match i with Some y => PArr y | None => full end) l = map rename ix.
Proof.
  revert ai. induction ix as [|i ix IH]; intros ai f E; cbn [rmap] in E.
  - injection E as <-. exists []. auto.
  - destruct (aix f i) as [a| |] eqn:A; cbn [rbind] in E; try discriminate E. destruct (rmap (aix f) ix) as [ai'| |] eqn:B; cbn [rbind] in E; try discriminate E. injection E as <-.
    destruct (IH ai' f B) as (l & L1 & L2). destruct i as [z|p1 p2 p3|y]; cbn [aix is_full] in A.
    + discriminate A.
    + exists (None :: l). destruct p1, p2, p3; try discriminate A. injection A as <-. cbn [map is_arr arrays flat_map app adv_indices]. unfold arrays in L1. rewrite L1. cbn [rbind map rename]. rewrite L2. auto.
    + exists (Some (topo y) :: l). injection A as <-. cbn [map is_arr arrays flat_map app adv_indices]. unfold arrays in L1. rewrite L1. cbn [rbind map rename]. rewrite L2. auto.
Qed.
Lemma arrays_rename ix : arrays (map rename ix) = map topo (arrays ix).
Proof. induction ix as [|[z|a b c|y] ix IH]; cbn in *; auto. f_equal. exact IH. Qed.
Lemma aix_rename ix ai f g : rmap (aix f) ix = Ok ai -> (forall y, In y (arrays ix) -> g (topo y) = f y) -> rmap (aix g) (map rename ix) = Ok ai.
Proof.
  revert ai. induction ix as [|i ix IH]; intros ai E H; cbn [rmap map] in *; [exact E|].
  destruct (aix f i) as [a| |] eqn:A; cbn [rbind] in E; try discriminate E. destruct (rmap (aix f) ix) as [ai'| |] eqn:B; cbn [rbind] in E; try discriminate E. injection E as <-.
  rewrite (IH ai' eq_refl). 2:{ intros y Hy. apply H. unfold arrays. cbn [flat_map]. apply in_or_app. now right. }
  destruct i as [z|p1 p2 p3|y]; cbn [aix is_full rename] in *; [discriminate A| |].
  - destruct p1, p2, p3; try discriminate A. injection A as <-. reflexivity.
  - injection A as <-. rewrite H by (now left). reflexivity.
Qed.

Lemma step_reads : step_ok.
Proof.
  pose proof (proj1 Im _ _ Hs) as F. pose proof all_before as PB. unfold step_ok. unfold fine in F. unfold into_zipfile. destruct (s_cls s) eqn:C.
  - destruct F as [P K]. rewrite P, K in *. do 2 eexists. split; [reflexivity|]. split; [|reflexivity]. reflexivity.
  - destruct F as (P & K & E). rewrite P, K in *. do 2 eexists. split; [reflexivity|]. split; [|exact (E m')]. reflexivity.
  - destruct F as (P & K & n & E). rewrite P, K, E in *. do 2 eexists. split; [reflexivity|]. split; [reflexivity|]. cbn [from_zipfile e_type e_preds e_stored type_of map]. now replace (n - 1 + 1) with n by lia.
  - destruct F as (P & K & E). rewrite P, K, E in *. do 2 eexists. split; [reflexivity|]. split; [reflexivity|]. cbn [from_zipfile e_type e_preds e_stored type_of map]. replace (n - 1 + 1) with n by lia.
    rewrite !Z.eqb_refl. reflexivity.
  - destruct F as (P & K & E & _). rewrite P, K, E in *. do 2 eexists. split; [reflexivity|]. split; reflexivity.
  - destruct F as (P & K & E & Hi & Ex & tm & Tm & Cm). rewrite P, K, E in *. pose proof (PB main (or_introl eq_refl)) as B. destruct (mate main tm Tm B) as (t & T & M & _). rewrite Cm in M.
    assert (Ct : s_cls t = KLists n k) by (cbn in M; congruence).
    do 2 eexists. split; [reflexivity|]. split; [|cbn [from_zipfile e_type e_preds e_stored type_of map]; unfold disjoint_list, bind, look; rewrite T, Ct; destruct (Nat.ltb_spec i k); [|lia]; cbn [negb]].
    2:{ rewrite (succ_len main i).
        - rewrite Nat.ltb_irrefl, Nat.eqb_refl. reflexivity.
        - now rewrite C.
        - exact Ex.
        - exact P.
        - exists tm. rewrite Cm. auto.
        - intros j Hj. pose proof (proj1 Im _ _ Tm) as Fm. unfold fine in Fm. rewrite Cm in Fm. destruct Fm as (_ & _ & _ & Fm). destruct (Fm j ltac:(lia)) as (u & U & Cu).
          exists u. split; auto. rewrite Cu. split; [reflexivity|]. pose proof (proj1 Im _ _ U) as Fu. unfold fine in Fu. rewrite Cu in Fu. apply Fu. }
    cbn. repeat split; auto. unfold at_. apply pos_at. eapply ord_in; eauto.
  - destruct F as (P & K & E & _). rewrite P, K, E in *. do 2 eexists. split; [reflexivity|]. split; reflexivity.
  - destruct F as (P & K & E & Hi & Ex & tm & Tm & Cm). rewrite P, K, E in *. pose proof (PB main (or_introl eq_refl)) as B. destruct (mate main tm Tm B) as (t & T & M & _). rewrite Cm in M.
    assert (Ct : s_cls t = KBits n k) by (cbn in M; congruence).
    do 2 eexists. split; [reflexivity|]. split; [|cbn [from_zipfile e_type e_preds e_stored type_of map]; unfold disjoint_bit_set, bind, look; rewrite T, Ct; destruct (Nat.ltb_spec i k); [|lia]; cbn [negb]].
    2:{ rewrite (succ_len main i).
        - rewrite Nat.ltb_irrefl, Nat.eqb_refl. reflexivity.
        - now rewrite C.
        - exact Ex.
        - exact P.
        - exists tm. rewrite Cm. auto.
        - intros j Hj. pose proof (proj1 Im _ _ Tm) as Fm. unfold fine in Fm. rewrite Cm in Fm. destruct Fm as (_ & _ & _ & Fm). destruct (Fm j ltac:(lia)) as (u & U & Cu).
          exists u. split; auto. rewrite Cu. split; [reflexivity|]. pose proof (proj1 Im _ _ U) as Fu. unfold fine in Fu. rewrite Cu in Fu. apply Fu. }
    cbn. repeat split; auto. unfold at_. apply pos_at. eapply ord_in; eauto.
  - destruct F as (A & a & r & P & E & Sh & Ct). rewrite P in *. inversion A as [|? ? Aa _]; subst. destruct Aa as (ta & Ta & Aa). assert (Aa' : arr m a) by (exists ta; auto).
    pose proof (Vw _ _ _ _ _ Hs C P Ta) as V. rewrite <- (shape_at_some _ _ _ Ta) in V. destruct (rebuild _ _ _ _ V E) as (jx & r' & E1 & E2 & E3 & E4 & E5 & E6 & E7).
    unfold node. rewrite Ta. cbn [rbind]. rewrite <- (shape_at_some _ _ _ Ta), <- (contig_at_some _ _ _ Ta), E1. cbn [rbind]. rewrite E2. cbn [rbind].
    exists (WBasic jx), (KBasic jx). split; [reflexivity|]. split; [exact E7|]. cbn [from_zipfile e_type e_preds e_stored type_of map]. fold back.
    pose proof (PB a (or_introl eq_refl)) as B. destruct (looked a Aa' B) as (t & L & Tt & L1 & L2 & _).
    unfold bind at 1. rewrite (array_symbols_ok [topo a]) by (constructor; [now apply mate_arr|constructor]).
    unfold basic, bind. rewrite L. unfold lift at 1. change (map _ jx) with (map back jx). rewrite E3. cbn [rbind]. rewrite L1, L2. unfold lift. rewrite E4. cbn [rbind]. rewrite E5, E6, Sh, Ct. reflexivity.
  - destruct F as (A & a & ix & ai & r & P & E & Er & Es & Sh & Ct). rewrite P in *. inversion A as [|? ? Aa Ax]; subst spec. cbn [tl].
    assert (Sp : ad_spec r = map is_arr ai).
    { unfold adv_new in Er. destruct (negb _); [discriminate Er|]. destruct (_ =? 0)%nat; [discriminate Er|]. destruct (AdvModel.parse _ _ _ _ _ _) as [[[fa b0] b1]| |]; cbn [rbind] in Er; try discriminate Er.
      destruct fa as [[[? ?] ?]|]; [|discriminate Er]. repeat (match type of Er with (if ?b then _ else _) = _ => destruct b end; try discriminate Er); injection Er as <-; reflexivity. }
    rewrite Sp. destruct (adv_written ix ai _ E) as (lw & L1 & L2). rewrite L1. cbn [rbind]. do 2 eexists. split; [reflexivity|]. split; [reflexivity|].
    cbn [from_zipfile e_type e_preds e_stored type_of map]. change (map _ lw) with (map (fun i : option nat => match i with Some y => PArr y | None => full end) lw). rewrite L2, arrays_rename.
    assert (Al : Forall (arr m') (map topo (a :: arrays ix))) by (apply arrs_all; auto). cbn [map] in Al.
    unfold bind at 1. rewrite (array_symbols_ok _ _ Al). unfold advanced, bind. destruct (looked a Aa (PB a (or_introl eq_refl))) as (t & T & Tt & T1 & _). rewrite T.
    destruct (looked_all (arrays ix) Ax) as (ts & U & _); [intros; apply PB; now right|]. rewrite arrays_rename, U. unfold lift at 1.
    rewrite (aix_rename ix ai (shape_at m) (shape_at m') E).
    2:{ intros y Hy. apply mate_shape; [|apply PB; now right]. rewrite Forall_forall in Ax. auto. }
    cbn [rbind]. unfold lift. rewrite T1, Er. cbn [rbind]. rewrite Sp, Sh, Ct. reflexivity.
  - destruct F as (A & a & o & P & E & Sh & Ct). rewrite P in *. inversion A as [|? ? Aa A1]; subst. inversion A1 as [|? ? Ao _]; subst. do 2 eexists. split; [reflexivity|]. split; [reflexivity|].
    cbn [from_zipfile e_type e_preds e_stored type_of map]. assert (Al : Forall (arr m') (map topo [a; o])) by (apply arrs_all; auto). cbn [map] in Al.
    unfold bind at 1. rewrite (array_symbols_ok _ _ Al). destruct (looked a Aa (PB a (or_introl eq_refl))) as (t & T & _ & T1 & _ & T2). destruct (looked o Ao (PB o (or_intror (or_introl eq_refl)))) as (u & U & _ & U1 & _).
    unfold permutation, bind. rewrite T, U. unfold lift. rewrite T1, T2, U1, E. cbn [rbind]. rewrite Sh, Ct. reflexivity.
  - destruct F as (A & a & P & Sh & Ct). rewrite P in *. inversion A as [|? ? Aa A1]; subst. do 2 eexists. split; [reflexivity|]. split; [reflexivity|].
    cbn [from_zipfile e_type e_preds e_stored type_of map]. assert (Al : Forall (arr m') (map topo [a])) by (apply arrs_all; auto). cbn [map] in Al.
    unfold bind at 1. rewrite (array_symbols_ok _ _ Al). destruct (looked a Aa (PB a (or_introl eq_refl))) as (t & T & _ & T1 & _ & T2). unfold unop, bind. rewrite T, T1, Sh, Ct. reflexivity.
  - destruct F as (A & a & b & P & E & Ct). rewrite P in *. inversion A as [|? ? Aa A1]; subst. inversion A1 as [|? ? Ab _]; subst. do 2 eexists. split; [reflexivity|]. split; [reflexivity|].
    cbn [from_zipfile e_type e_preds e_stored type_of map]. assert (Al : Forall (arr m') (map topo [a; b])) by (apply arrs_all; auto). cbn [map] in Al.
    unfold bind at 1. rewrite (array_symbols_ok _ _ Al). destruct (looked a Aa (PB a (or_introl eq_refl))) as (t & T & _ & T1 & _). destruct (looked b Ab (PB b (or_intror (or_introl eq_refl)))) as (u & U & _ & U1 & _).
    unfold binop, bind. rewrite T, U. unfold lift. rewrite T1, U1, E. cbn [rbind]. rewrite Ct. reflexivity.
  - destruct F as (A & E & Ct). do 2 eexists. split; [reflexivity|]. split; [reflexivity|]. cbn [from_zipfile e_type e_preds e_stored type_of].
    assert (Al : Forall (arr m') (map topo (s_pred s))) by (apply arrs_all; auto). destruct (looked_all (s_pred s) A PB) as (ts & T & Ts). rewrite Ct.
    assert (G : (do _ <- array_symbols (map topo (s_pred s)) ; nary o (map topo (s_pred s))) m' = emit (KNary o) (map topo (s_pred s)) (s_shape s) true m').
    { unfold bind at 1. rewrite (array_symbols_ok _ _ Al). unfold nary, bind. rewrite T. unfold lift. rewrite Ts, E. reflexivity. }
    destruct (map topo (s_pred s)) as [|p1 [|p2 [|p3 [|]]]]; exact G.
  - destruct F as (A & a & v & P & E & Sh & Ct). rewrite P in *. inversion A as [|? ? Aa A1]; subst. do 2 eexists. split; [reflexivity|]. split; [reflexivity|].
    cbn [from_zipfile e_type e_preds e_stored type_of map]. assert (Al : Forall (arr m') (map topo [a])) by (apply arrs_all; auto). cbn [map] in Al.
    unfold bind at 1. rewrite (array_symbols_ok _ _ Al). destruct (looked a Aa (PB a (or_introl eq_refl))) as (t & T & _ & T1 & _ & T2). unfold red, bind. rewrite T. unfold lift. rewrite T1, E. cbn [rbind]. rewrite Sh, Ct. reflexivity.
  - destruct F as (A & a & b & c & P & E & Ct). rewrite P in *. inversion A as [|? ? Aa A1]; subst. inversion A1 as [|? ? Ab A2]; subst. inversion A2 as [|? ? Ac _]; subst.
    do 2 eexists. split; [reflexivity|]. split; [reflexivity|].
    cbn [from_zipfile e_type e_preds e_stored type_of map]. assert (Al : Forall (arr m') (map topo [a; b; c])) by (apply arrs_all; auto). cbn [map] in Al.
    unfold bind at 1. rewrite (array_symbols_ok _ _ Al). destruct (looked a Aa (PB a (or_introl eq_refl))) as (t & T & _ & T1 & _). destruct (looked b Ab (PB b (or_intror (or_introl eq_refl)))) as (u & U & _ & U1 & _).
    destruct (looked c Ac (PB c (or_intror (or_intror (or_introl eq_refl))))) as (w & W & _ & W1 & _).
    unfold where_, bind. rewrite T, U, W. unfold lift. rewrite T1, U1, W1, E. cbn [rbind]. rewrite Ct. reflexivity.
  - destruct F as (A & a & P & Sh & Ct). rewrite P in *. inversion A as [|? ? Aa A1]; subst. do 2 eexists. split; [reflexivity|]. split; [reflexivity|].
    cbn [from_zipfile e_type e_preds e_stored type_of map]. assert (Al : Forall (arr m') (map topo [a])) by (apply arrs_all; auto). cbn [map] in Al.
    unfold bind at 1. rewrite (array_symbols_ok _ _ Al). rewrite Sh, Ct. reflexivity.
  - destruct F as (P & K & E). rewrite P, K in *. do 2 eexists. split; [reflexivity|]. split; [|exact (E m')]. reflexivity.
  - destruct F as (A & a & P & Ng & E & Ct). rewrite P in *. inversion A as [|? ? Aa A1]; subst. do 2 eexists. split; [reflexivity|]. split; [reflexivity|].
    cbn [from_zipfile e_type e_preds e_stored type_of map]. assert (Al : Forall (arr m') (map topo [a])) by (apply arrs_all; auto). cbn [map] in Al.
    unfold bind at 1. rewrite (array_symbols_ok _ _ Al). destruct (looked a Aa (PB a (or_introl eq_refl))) as (t & T & _ & T1 & T2 & _). unfold reshape, bind. rewrite Ng, T. unfold lift. rewrite T1, T2, E. cbn [rbind]. rewrite Ct. reflexivity.
  - destruct F as (A & b & P & E & Ct). rewrite P in *. inversion A as [|? ? Aa A1]; subst. do 2 eexists. split; [reflexivity|]. split; [reflexivity|].
    cbn [from_zipfile e_type e_preds e_stored type_of map]. assert (Al : Forall (arr m') (map topo [b])) by (apply arrs_all; auto). cbn [map] in Al.
    unfold bind at 1. rewrite (array_symbols_ok _ _ Al). destruct (looked b Aa (PB b (or_introl eq_refl))) as (t & T & _ & T1 & _). unfold partial_sum, bind. rewrite T. unfold lift. rewrite T1, E. cbn [rbind]. rewrite Nat2Z.id, Ct. reflexivity.
  - destruct F.
Qed.
Lemma step : exists e m'', write_entry m topo x = Ok e /\ forallb (fun p => (p <? q)%nat) (e_preds e) = true /\ from_zipfile e m' = Ok (q, m'') /\ R (S q) m'' /\ p_obj m'' = p_obj m' /\ p_cons m'' = p_cons m'.
Proof.
  destruct step_reads as (w & c' & W & So & E). destruct (R_emit c' So) as (m'' & Em & R' & O1 & O2). exists (Entry (type_of (s_cls s)) (map topo (s_pred s)) w), m''.
  unfold write_entry, node. rewrite Hs. cbn [rbind]. rewrite W. split; [reflexivity|]. split; [|rewrite E; auto]. cbn [e_preds]. apply forallb_forall. intros p Hp. apply in_map_iff in Hp as (p0 & <- & Hp).
  apply Nat.ltb_lt. now apply pred_before.
Qed.
End At.
End Read.
