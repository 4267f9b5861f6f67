(** Job shop scheduling: the generator's model computes what it should. *)
From Coq Require Import Permutation.
From Verif Require Import Base Num SliceModel ShapeModel ShapeSpec SliceSpec StateDataModel NodeSpec BinaryModel BasicModel BasicSpec ViewModel ElemModel NaryModel
  ReduceModel BoundsModel PermModel AdvModel NarySpec ReduceSpec BinarySpec ElemSpec PermSpec ViewSpec AdvSpec ProposeSpec PyModel GenModel PySpec GenSpec PyProofs PyValues PyRules GenProofs GenProofs2 ReduceProofs.
Set Implicit Arguments.

Lemma nth_map_lt {A C} (f : A -> C) l i d d' : i < length l -> nth i (map f l) d = f (nth i l d').
Proof. revert i; induction l as [|a l IH]; intros [|i] H; cbn in H; try lia; [reflexivity|]. cbn. apply IH. lia. Qed.
(** * Matrices combined element by element *)
Definition mzip (f : num -> num -> num) (A B : list (list num)) : list (list num) :=
  map (fun p => map (fun q => f (fst q) (snd q)) (combine (fst p) (snd p))) (combine A B).
Lemma mzip_concat f A B r k : matrix r k A -> matrix r k B ->
  map (fun q => f (fst q) (snd q)) (combine (concat A) (concat B)) = concat (mzip f A B).
Proof.
  intros [<- HA] [HB1 HB]. revert B HB1 HB. induction A as [|a A IH]; intros [|b B] L HB; try discriminate; [reflexivity|].
  inversion HA as [|? ? Ha HA']; inversion HB as [|? ? Hb HB']; subst. cbn [concat]. rewrite combine_app by congruence. rewrite map_app.
  unfold mzip. cbn [combine map concat fst snd]. f_equal. apply IH; auto.
Qed.
Lemma mzip_matrix f A B r k : matrix r k A -> matrix r k B -> matrix r k (mzip f A B).
Proof.
  intros [H1 H2] [H3 H4]. unfold mzip. split; [rewrite map_length, combine_length; lia|]. apply Forall_forall. intros x Hx.
  apply in_map_iff in Hx as ((a & b) & <- & Hab). cbn [fst snd]. rewrite map_length, combine_length. rewrite Forall_forall in H2, H4.
  rewrite (H2 a), (H4 b); [lia|now apply in_combine_r in Hab|now apply in_combine_l in Hab].
Qed.
Lemma entry_mzip f A B r k i j : matrix r k A -> matrix r k B -> i < r -> j < k -> entry (mzip f A B) i j = f (entry A i j) (entry B i j).
Proof.
  intros HA HB Hi Hj. pose proof HA as [H1 H2]. pose proof HB as [H3 H4]. unfold entry, mzip.
  rewrite (@nth_map_lt _ _ _ _ i _ ([], [])) by (rewrite combine_length; lia). rewrite combine_nth by congruence. cbn [fst snd].
  assert (La : length (nth i A []) = k) by (apply nth_row; [exact H2|lia]). assert (Lb : length (nth i B []) = k) by (apply nth_row; [exact H4|lia]).
  rewrite (@nth_map_lt _ _ _ _ j _ (0%Qc, 0%Qc)) by (rewrite combine_length; lia). rewrite combine_nth by congruence. reflexivity.
Qed.
Lemma matrix_rows (D : list (list num)) r k (l : list nat) : matrix r k D -> Forall (fun i => i < r) l -> matrix (length l) k (map (fun i => nth i D []) l).
Proof.
  intros [H1 H2] Hl. split; [apply map_length|]. rewrite Forall_map. eapply Forall_impl; [|exact Hl]. cbv beta. intros i Hi. apply nth_row; [exact H2|lia].
Qed.
Lemma entry_rows (D : list (list num)) l p j : p < length l -> entry (map (fun i => nth i D []) l) p j = entry D (nth p l 0) j.
Proof.
  intros Hp. unfold entry. now rewrite (@nth_map_lt _ _ _ _ p _ 0) by exact Hp.
Qed.
Lemma in_matrix (D : list (list num)) r k x : matrix r k D -> In x (concat D) <-> exists i j, i < r /\ j < k /\ x = entry D i j.
Proof.
  intros [H1 H2]. split.
  - intros H. apply in_concat in H as (row & Hr & Hx). apply (In_nth _ _ []) in Hr as (i & Hi & Er). apply (In_nth _ _ 0%Qc) in Hx as (j & Hj & Ex).
    exists i, j. rewrite Forall_forall in H2. assert (Lr : length row = k) by (apply H2; rewrite <- Er; now apply nth_In).
    split; [lia|]. split; [lia|]. unfold entry. now rewrite Er.
  - intros (i & j & Hi & Hj & ->). apply in_concat. exists (nth i D []). split; [apply nth_In; lia|]. unfold entry. apply nth_In.
    rewrite (@nth_row _ D k); auto. lia.
Qed.
Lemma forallb_matrix (D : list (list num)) (p : num -> bool) r k : matrix r k D ->
  forallb p (concat D) = true <-> forall i j, i < r -> j < k -> p (entry D i j) = true.
Proof.
  intros HD. rewrite forallb_forall. split.
  - intros H i j Hi Hj. apply H. apply (in_matrix _ HD). eauto.
  - intros H x Hx. apply (in_matrix _ HD) in Hx as (i & j & Hi & Hj & ->). auto.
Qed.

(** * Pairs of jobs *)
Lemma in_pairs n u v : In (u, v) (pairs n) <-> u < v /\ v < n.
Proof.
  unfold pairs. rewrite in_flat_map. split.
  - intros (i & Hi & H). apply in_map_iff in H as (j & E & Hj). injection E as <- <-. apply in_seq in Hi, Hj. lia.
  - intros H. exists u. rewrite in_seq. split; [lia|]. apply in_map_iff. exists v. rewrite in_seq. split; [reflexivity|lia].
Qed.
Lemma pairs_length n : length (pairs n) <= n * n.
Proof.
  unfold pairs. assert (G : forall l, length (flat_map (fun i => map (fun j => (i, j)) (seq (S i) (n - S i))) l) <= length l * n).
  { induction l as [|a l IH]; [cbn; lia|]. cbn [flat_map length]. rewrite app_length, map_length, seq_length. lia. }
  specialize (G (seq 0 n)). now rewrite seq_length in G.
Qed.

(** * Reductions *)
Section Reds.
Variable B : nat -> Prop.
Variable dv : nat -> list num.
Lemma runs_all x c sh ct l m (Q : nat -> pym -> Prop) :
  open_ B m -> fact B m dv x c sh ct l ->
  (forall z m', steps B m m' -> fact B m' dv z (KRed RAnd) [] true [b2q (forallb q2b l)] -> Q z m') -> runs (red RAnd x) m Q.
Proof. intros Ho F HQ. eapply runs_red; [exact Ho|exact F|reflexivity|reflexivity|exact HQ]. Qed.
Lemma runs_max x c sh ct a l m (Q : nat -> pym -> Prop) :
  open_ B m -> fact B m dv x c sh ct (a :: l) -> (1 <= shape_to_size sh)%Z ->
  (forall z m', steps B m m' -> fact B m' dv z (KRed RMax) [] true [fold_left qmax l a] -> Q z m') -> runs (red RMax x) m Q.
Proof.
  intros Ho F Hs HQ. eapply runs_red; [exact Ho|exact F| |reflexivity|exact HQ]. cbn [red_new].
  destruct (Z.ltb_spec (shape_to_size sh) 0); [lia|]. destruct (Z.ltb_spec (shape_to_size sh) 1); [lia|]. reflexivity.
Qed.
End Reds.

Lemma all_le_spec (a b : list num) : length a = length b ->
  forallb q2b (map (fun p => b2q (qleb (fst p) (snd p))) (combine a b)) = true <-> forall i, i < length a -> (nth i a 0 <= nth i b 0)%Qc.
Proof.
  intros L. rewrite forallb_forall. split.
  - intros H i Hi. rewrite <- qleb_true. specialize (H (b2q (qleb (nth i a 0%Qc) (nth i b 0%Qc)))).
    assert (E : In (b2q (qleb (nth i a 0%Qc) (nth i b 0%Qc))) (map (fun p => b2q (qleb (fst p) (snd p))) (combine a b))).
    { apply in_map_iff. exists (nth i a 0%Qc, nth i b 0%Qc). split; [reflexivity|]. rewrite <- combine_nth by exact L. apply nth_In. rewrite combine_length. lia. }
    specialize (H E). now destruct (qleb _ _).
  - intros H x Hx. apply in_map_iff in Hx as ((u & v) & <- & Huv). apply (In_nth _ _ (0%Qc, 0%Qc)) in Huv as (i & Hi & E).
    rewrite combine_length in Hi. rewrite combine_nth in E by exact L. injection E as <- <-. cbn [fst snd]. specialize (H i ltac:(lia)).
    apply qleb_true in H. now rewrite H.
Qed.
Lemma nth_tl' (l : list nat) i : nth i (tl l) 0 = nth (i + 1) l 0.
Proof. destruct l as [|a l]; [now destruct i|]. cbn [tl]. now rewrite Nat.add_1_r. Qed.
Lemma nth_removelast (l : list nat) i : i + 1 < length l -> nth i (removelast l) 0 = nth i l 0.
Proof.
  revert i; induction l as [|a l IH]; intros i H; [cbn in H; lia|]. destruct l as [|b l]; [cbn in H; lia|].
  change (removelast (a :: b :: l)) with (a :: removelast (b :: l)). destruct i as [|i]; [reflexivity|]. cbn [nth]. apply IH. cbn [length] in *. lia.
Qed.

Lemma sum_nonneg (l : list Z) : Forall (fun t => 0 <= t)%Z l -> (0 <= fold_right Z.add 0 l)%Z.
Proof. induction 1; cbn; lia. Qed.
Lemma concat_len (D : list (list num)) r c : matrix r c D -> length (concat D) = r * c.
Proof.
  intros [<- H]. induction H as [|x D Hx _ IH]; [reflexivity|]. cbn [concat length]. rewrite app_length, IH, Hx. lia.
Qed.

Section JobShop.
Variables (times : list (list Z)) (M : list (list nat)) (one_based : nat) (bound : option Z) (St : list (list num)) (dv : nat -> list num).
Variables jobs k : nat.
Let T := map (map zq) times.
Let machines := map (map (fun i => Z.of_nat (one_based + i))) M.
Hypothesis Hj : 1 <= jobs.
Hypothesis Hk : 1 <= k.
Hypothesis Hsz : (Z.of_nat (jobs * jobs * k) < 2147483648)%Z.
Hypothesis HT : matrix jobs k T.
Hypothesis HT0 : Forall (Forall (fun t => 0 <= t)%Z) times.
Hypothesis HM1 : length M = jobs.
Hypothesis HM : Forall (fun row => Permutation row (seq 0 k)) M.
Hypothesis Hone : one_based = 0 \/ one_based = 1.
Hypothesis Hbound : forall u, bound = Some u -> (1 <= u)%Z.
Hypothesis HS : matrix jobs k St.
Hypothesis Hdv : dv 2 = concat St.

Let E := mzip Qcplus St T.
Lemma js_E : matrix jobs k E.
Proof. now apply mzip_matrix. Qed.
Lemma js_entry i j : i < jobs -> j < k -> entry E i j = ends T St i j.
Proof. intros Hi Hj'. unfold E. now rewrite (entry_mzip _ HS HT). Qed.
Lemma js_row i : i < jobs -> length (nth i M []) = k /\ Forall (fun j => j < k) (nth i M []).
Proof.
  intros Hi. rewrite Forall_forall in HM. assert (P : Permutation (nth i M []) (seq 0 k)) by (apply HM; apply nth_In; lia).
  split; [rewrite (Permutation_length P); apply seq_length|]. apply Forall_forall. intros j Hjj. apply (Permutation_in _ P) in Hjj. apply in_seq in Hjj. lia.
Qed.


(** [x[j, idx]]: a row, then its elements. *)
Lemma runs_row_items x c (D : list (list num)) j y c2 ct2 (l : list nat) m (Q : nat -> pym -> Prop) :
  open_ nobody m -> fact nobody m dv x c [Z.of_nat jobs; Z.of_nat k] true (concat D) -> not_adv c -> matrix jobs k D -> j < jobs ->
  fact nobody m dv y c2 [Z.of_nat (length l)] ct2 (numbers l) -> Forall (fun i => i < k) l ->
  (forall z m', steps nobody m m' -> fact nobody m' dv z (KAdv [true]) [Z.of_nat (length l)] true (map (fun i => entry D j i) l) -> Q z m') ->
  runs (getitem x [PInt (Z.of_nat j); PArr y]) m Q.
Proof.
  intros Ho F Hc HD Hjj F2 Hl HQ. pose proof F as [[ps Hx] _]. eapply runs_getitem; [exact Hx|exact Hc|].
  eapply runs_array_getitem_both; [exact F|reflexivity|reflexivity|]. cbn [length Nat.sub repeat app map split_basic split_adv flat_map].
  assert (Hb : (Z.of_nat (jobs * k) < 2147483648)%Z) by nia.
  assert (Hrow : length (nth j D []) = k) by (destruct HD as [HD1 HD2]; apply nth_row; [exact HD2|lia]).
  eapply runs_row with (a := None) (b := None); [exact Ho|exact F|exact Hc|exact HD|exact Hb|exact Hjj|exact Hk|].
  intros b m1 ct1 S1 w F1. subst w. cbn [value_or] in F1. rewrite cut_all in F1 by (rewrite Hrow; unfold SMAX; nia).
  advance S1. eapply runs_gather; [exact O|exact F1|exact F2|cbn; lia|now rewrite Hrow|].
  intros z m2 S2 F3. apply HQ; [exact (steps_trans S1 S2)|exact F3].
Qed.
(** [machines[j, a:b]]. *)
Lemma runs_machines mach j a b m (Q : nat -> pym -> Prop) :
  open_ nobody m -> fact nobody m dv mach (KConst (concat (map numbers M))) [Z.of_nat jobs; Z.of_nat k] true (concat (map numbers M)) -> j < jobs ->
  (forall z m' c ct, steps nobody m m' -> let l := cut (value_or a 0%Z) (value_or b SMAX) (nth j M []) in
     fact nobody m' dv z c [Z.of_nat (length l)] ct (numbers l) -> Q z m') ->
  runs (getitem mach [PInt (Z.of_nat j); PSlice a b None]) m Q.
Proof.
  intros Ho F Hjj HQ. pose proof F as [[ps Hx] _]. eapply runs_getitem; [exact Hx|exact I|].
  eapply runs_array_getitem_basic; [exact F|reflexivity|]. cbn [length Nat.sub repeat app].
  assert (Hm : matrix jobs k (map numbers M)).
  { split; [now rewrite map_length|]. rewrite Forall_map. apply Forall_forall. intros row Hrow. rewrite numbers_length. 
    rewrite (Permutation_length (proj1 (Forall_forall _ _) HM _ Hrow)). apply seq_length. }
  eapply runs_row; [exact Ho|exact F|exact I|exact Hm|nia|exact Hjj|exact Hk|].
  intros y m1 ct1 S1 w F1. subst w. rewrite (@nth_map_lt _ _ numbers M j [] []) in F1 by lia. eapply HQ; [exact S1|].
  rewrite <- numbers_cut, numbers_length in F1. exact F1.
Qed.

(** One job: its operations in order. *)
Definition job_ok (j : nat) : bool := forallb q2b (map (fun p => b2q (qleb (fst p) (snd p)))
  (combine (map (fun i => entry E j i) (removelast (nth j M []))) (map (fun i => entry St j i) (tl (nth j M []))))).
Lemma job_ok_spec j : j < jobs -> job_ok j = true <->
  (forall p : nat, p + 1 < length (nth j M []) -> (ends T St j (nth p (nth j M []) O) <= entry St j (nth (p + 1)%nat (nth j M []) O))%Qc).
Proof.
  intros Hjj. destruct (js_row Hjj) as [Hl HF]. unfold job_ok. rewrite all_le_spec by (rewrite !map_length; apply removelast_length).
  rewrite map_length, removelast_length. assert (Lt : length (tl (nth j M [])) + 1 = length (nth j M [])) by (rewrite Hl; destruct (nth j M []); cbn in *; lia).
  assert (Ent : forall p, p + 1 < length (nth j M []) -> nth p (map (fun i => entry E j i) (removelast (nth j M []))) 0%Qc = ends T St j (nth p (nth j M []) 0) /\
     nth p (map (fun i => entry St j i) (tl (nth j M []))) 0%Qc = entry St j (nth (p + 1) (nth j M []) 0)).
  { intros p Hp. rewrite !(@nth_map_lt _ _ _ _ p _ 0) by (rewrite ?removelast_length; lia). rewrite nth_removelast, nth_tl' by exact Hp.
    split; [|reflexivity]. apply js_entry; [exact Hjj|]. apply Forall_nth_lt; [exact HF|lia]. }
  split; intros H p Hp.
  - specialize (H p ltac:(lia)). destruct (Ent p Hp) as [E1 E2]. now rewrite E1, E2 in H.
  - destruct (Ent p ltac:(lia)) as [E1 E2]. rewrite E1, E2. apply H. lia.
Qed.
Lemma jobs_runs mach start e cs ce m (Q : unit -> pym -> Prop) :
  open_ nobody m -> fact nobody m dv mach (KConst (concat (map numbers M))) [Z.of_nat jobs; Z.of_nat k] true (concat (map numbers M)) ->
  fact nobody m dv start cs [Z.of_nat jobs; Z.of_nat k] true (concat St) -> not_adv cs ->
  fact nobody m dv e ce [Z.of_nat jobs; Z.of_nat k] true (concat E) -> not_adv ce ->
  (forall m' ks, grows nobody ks m m' -> Forall2 (holds nobody m' dv) ks (map job_ok (seq 0 jobs)) -> Q tt m') ->
  runs (pfor (seq 0 jobs) (fun _ j =>
            let j := Z.of_nat j in
            do a <- getitem mach [PInt j; PSlice None (Some (-1)%Z) None] ;
            do e <- getitem e [PInt j; PArr a] ;
            do a <- getitem mach [PInt j; PSlice (Some 1%Z) None None] ;
            do s <- getitem start [PInt j; PArr a] ;
            do c <- binop BLe e s ; do c <- red RAnd c ; add_constraint c) tt) m Q.
Proof.
  intros Ho Fm Fs Hcs Fe Hce HQ.
  apply runs_pfor with (I := fun done _ m' => exists ks, grows nobody ks m m' /\ Forall2 (holds nobody m' dv) ks (map job_ok (seq 0 (length done)))).
  - exists []. split; [now apply grows_refl|constructor].
  - intros done x todo _ m1 El (ks & G & HF). apply seq_mid in El as [-> Hi]. cbn [plus]. cbv zeta. set (j := length done) in *. grown G.
    destruct (js_row Hi) as [Hl Hlt]. set (row := nth j M []) in *.
    apply runs_bind. eapply runs_machines; [exact O|exact Fm|exact Hi|]. intros a n1 c1 t1 T1 l1 A1. subst l1. cbn [value_or] in A1. rewrite cut_init in A1. advance T1.
    apply runs_bind. eapply runs_row_items; [exact O|exact Fe|exact Hce|exact js_E|exact Hi|exact A1|now apply Forall_removelast|]. intros e1 n2 T2 A2. advance T2.
    apply runs_bind. eapply runs_machines; [exact O|exact Fm|exact Hi|]. intros b n3 c3 t3 T3 l3 A3. subst l3. cbn [value_or] in A3.
    fold row in A3. rewrite cut_tail in A3 by (rewrite Hl; unfold SMAX; nia). advance T3.
    apply runs_bind. eapply runs_row_items; [exact O|exact Fs|exact Hcs|exact HS|exact Hi|exact A3|now apply Forall_tl|]. intros s1 n4 T4 A4. advance T4.
    fold row in A2. rewrite removelast_length in A2.
    assert (Ltl : length (tl row) < length row) by (rewrite Hl; destruct row; cbn in *; lia).
    apply runs_bind. eapply runs_same; [exact O|exact A2|exact A4|discriminate|discriminate| | | | |].
    { rewrite size1; nia. } { cbn. destruct (Z.ltb_spec (Z.of_nat (length (tl row))) 0); [lia|reflexivity]. }
    { rewrite map_length, removelast_length. cbn. lia. } { rewrite !map_length. apply removelast_length. }
    intros le n5 T5 A5. advance T5.
    apply runs_bind. eapply runs_all; [exact O|exact A5|]. intros all n6 T6 A6. advance T6.
    eapply runs_constrain; [exact O|exact A6|reflexivity|]. intros n7 G7. grown G7.
    assert (K : steps nobody m1 n6) by exact (steps_trans T1 (steps_trans T2 (steps_trans T3 (steps_trans T4 (steps_trans T5 T6))))).
    exists (ks ++ [all]). split; [exact (grows_trans (grows_step G K) G7)|].
    rewrite app_length. cbn [length]. rewrite Nat.add_1_r, seq_S, map_app. apply Forall2_app.
    + eapply Forall2_imp; [|exact HF]. intros y bb. apply holds_keeps. exact (keeps_trans (steps_keeps K) (proj1 G7)).
    + constructor; [|constructor]. do 3 eexists. exact A6.
  - intros [] m' (ks & G & HF). rewrite seq_length in HF. now apply HQ with ks.
Qed.

(** ** Two jobs on one machine *)
Let ps := pairs jobs.
Let us := map fst ps.
Let vs := map snd ps.
Definition pairs_ok : bool :=
  forallb q2b (map (fun p => bop_total BOr (fst p) (snd p)) (combine
    (map (fun p => bop_total BLe (fst p) (snd p)) (combine (concat (map (fun i => nth i E []) us)) (concat (map (fun i => nth i St []) vs))))
    (map (fun p => bop_total BLe (fst p) (snd p)) (combine (concat (map (fun i => nth i E []) vs)) (concat (map (fun i => nth i St []) us)))))).
Lemma us_lt : Forall (fun i => i < jobs) us.
Proof. unfold us. rewrite Forall_map. apply Forall_forall. intros [u v] H. apply in_pairs in H. cbn [fst]. lia. Qed.
Lemma vs_lt : Forall (fun i => i < jobs) vs.
Proof. unfold vs. rewrite Forall_map. apply Forall_forall. intros [u v] H. apply in_pairs in H. cbn [snd]. lia. Qed.
Lemma us_length : length us = length ps. Proof. apply map_length. Qed.
Lemma vs_length : length vs = length ps. Proof. apply map_length. Qed.
Lemma rows_m (D : list (list num)) l : matrix jobs k D -> Forall (fun i => i < jobs) l -> length l = length ps ->
  matrix (length ps) k (map (fun i => nth i D []) l).
Proof. intros H1 H2 <-. now apply matrix_rows with jobs. Qed.
Lemma or_le a b c d : q2b (bop_total BOr (bop_total BLe a b) (bop_total BLe c d)) = true <-> (a <= b \/ c <= d)%Qc.
Proof. cbn. rewrite <- !qleb_true. destruct (qleb a b), (qleb c d); cbn; intuition discriminate. Qed.
Lemma pairs_ok_spec : pairs_ok = true <-> no_overlap T St jobs k.
Proof.
  unfold pairs_ok. pose proof (rows_m js_E us_lt us_length) as M1. pose proof (rows_m HS vs_lt vs_length) as M2.
  pose proof (rows_m js_E vs_lt vs_length) as M3. pose proof (rows_m HS us_lt us_length) as M4.
  rewrite (mzip_concat (bop_total BLe) M1 M2), (mzip_concat (bop_total BLe) M3 M4).
  pose proof (mzip_matrix (bop_total BLe) M1 M2) as N1. pose proof (mzip_matrix (bop_total BLe) M3 M4) as N2.
  rewrite (mzip_concat (bop_total BOr) N1 N2), (forallb_matrix q2b (mzip_matrix (bop_total BOr) N1 N2)). unfold no_overlap.
  assert (Ent : forall p j, p < length ps -> j < k ->
     (q2b (entry (mzip (bop_total BOr) (mzip (bop_total BLe) (map (fun i => nth i E []) us) (map (fun i => nth i St []) vs))
       (mzip (bop_total BLe) (map (fun i => nth i E []) vs) (map (fun i => nth i St []) us))) p j) = true <->
      ends T St (fst (nth p ps (O, O))) j <= entry St (snd (nth p ps (O, O))) j \/ ends T St (snd (nth p ps (O, O))) j <= entry St (fst (nth p ps (O, O))) j)%Qc).
  { intros p j Hp Hjj. rewrite (entry_mzip _ N1 N2), (entry_mzip _ M1 M2), (entry_mzip _ M3 M4), or_le by assumption.
    rewrite !entry_rows by (rewrite ?us_length, ?vs_length; exact Hp). unfold us, vs. rewrite !(@nth_map_lt _ _ _ ps p 0 (O, O)) by exact Hp.
    assert (Hin : In (nth p ps (O, O)) ps) by now apply nth_In. destruct (nth p ps (O, O)) as [u v]. apply in_pairs in Hin. cbn [fst snd].
    rewrite !js_entry by lia. reflexivity. }
  split.
  - intros H u v j Huv Hv Hjj. assert (Hin : In (u, v) ps) by (now apply in_pairs). apply (In_nth _ _ (O, O)) in Hin as (p & Hp & E1).
    specialize (H p j Hp Hjj). apply Ent in H; auto. rewrite E1 in H. exact H.
  - intros H p j Hp Hjj. apply Ent; auto. assert (Hin : In (nth p ps (O, O)) ps) by now apply nth_In.
    destruct (nth p ps (O, O)) as [u v]. apply in_pairs in Hin as [H1 H2]. apply H; assumption.
Qed.

(** ** The machines, from 0 *)
Lemma machines_from_0 :
  (if forallb (forallb (fun z => negb (z =? 0)%Z)) machines then map (map (fun z => z - 1)%Z) machines else machines) = map (map Z.of_nat) M.
Proof.
  unfold machines. destruct Hone as [-> | ->].
  - replace (forallb _ _) with false; [reflexivity|]. symmetry. apply not_true_iff_false. intros H. rewrite forallb_forall in H.
    specialize (H (map (fun i => Z.of_nat (0 + i)) (nth 0 M []))). rewrite forallb_forall in H.
    assert (Hin : In (nth 0 M []) M) by (apply nth_In; lia). assert (P := proj1 (Forall_forall _ _) HM _ Hin).
    assert (H0 : In 0 (nth 0 M [])) by (apply (Permutation_in _ (Permutation_sym P)); apply in_seq; lia).
    assert (H1 : negb (0 =? 0)%Z = true); [|discriminate]. apply H.
    + apply in_map_iff. eauto.
    + apply in_map_iff. exists 0. split; [reflexivity|exact H0].
  - replace (forallb _ _) with true.
    + rewrite map_map. apply map_ext. intros row. rewrite map_map. apply map_ext. intros i. lia.
    + symmetry. rewrite forallb_forall. intros row Hrow. apply in_map_iff in Hrow as (r & <- & _). rewrite forallb_forall. intros z Hz.
      apply in_map_iff in Hz as (i & <- & _). destruct (Z.eqb_spec (Z.of_nat (1 + i)) 0); [lia|reflexivity].
Qed.
Lemma machines_ok : forallb (row_ok k) (map (map Z.of_nat) M) = true.
Proof.
  apply forallb_forall. intros row Hrow. apply in_map_iff in Hrow as (r & <- & Hr). assert (P := proj1 (Forall_forall _ _) HM _ Hr).
  unfold row_ok. rewrite map_length, (Permutation_length P), seq_length, Nat.eqb_refl. cbn [andb]. apply forallb_forall. intros i Hi.
  apply existsb_exists. exists (Z.of_nat i). split; [|apply Z.eqb_refl]. apply in_map. now apply (Permutation_in _ (Permutation_sym P)).
Qed.
Lemma machines_matrix : matrix jobs k (map (map zq) machines) /\ Forall nonnegative (map (map zq) machines).
Proof.
  unfold machines. split; [split|].
  - now rewrite !map_length.
  - rewrite !Forall_map. eapply Forall_impl; [|exact HM]. cbv beta. intros r P. rewrite !map_length, (Permutation_length P). apply seq_length.
  - rewrite !Forall_map. eapply Forall_impl; [|exact HM]. cbv beta. intros r _. unfold nonnegative. rewrite !Forall_map. apply Forall_forall.
    intros i _. change 0%Qc with (zq 0). apply zq_le. lia.
Qed.
Lemma zmatrix_machines : zmatrix (map (map Z.of_nat) M) = concat (map numbers M).
Proof. unfold zmatrix. rewrite concat_map, map_map. f_equal. apply map_ext. intros r. now rewrite map_map. Qed.

(** ** All of it *)
Definition horizon : Z := match bound with None => fold_right Z.add 0%Z (concat times) | Some u => u end.
Hypothesis Hhor : (horizon <= 2000000000)%Z.
Lemma horizon_pos : (0 <= horizon)%Z.
Proof.
  unfold horizon. destruct bound as [u|]; [specialize (Hbound eq_refl); lia|]. apply sum_nonneg. apply Forall_forall. intros t Ht.
  apply in_concat in Ht as (r & Hr & Ht). exact (proj1 (Forall_forall _ _) (proj1 (Forall_forall _ _) HT0 r Hr) t Ht).
Qed.
Lemma last_end_max a l : concat E = a :: l -> last_end T St jobs k (fold_left qmax l a).
Proof.
  intros HE. destruct (max_fold l a) as [H1 H2]. rewrite <- HE in H1, H2. split.
  - apply (in_matrix _ js_E) in H1 as (i & j & Hi & Hjj & Heq). exists i, j. rewrite js_entry in Heq by assumption. auto.
  - intros i j Hi Hjj. apply H2. apply (in_matrix _ js_E). exists i, j. rewrite js_entry by assumption. auto.
Qed.

Lemma job_shop_runs :
  runs (job_shop_scheduling times machines bound) no_model (fun x m => x = 2 /\
    decision m 2 (KInteger 0 horizon) [Z.of_nat jobs; Z.of_nat k] /\
    (exists e, last_end T St jobs k e /\ objective m dv e) /\ feasible_iff m dv (in_order T St M /\ no_overlap T St jobs k)).
Proof.
  unfold job_shop_scheduling. fold T.
  assert (HTn : Forall nonnegative T).
  { unfold T. rewrite Forall_map. eapply Forall_impl; [|exact HT0]. cbv beta. intros r Hr. unfold nonnegative. rewrite Forall_map.
    eapply Forall_impl; [|exact Hr]. cbv beta. intros t Ht. change 0%Qc with (zq 0). now apply zq_le. }
  apply runs_bind. eapply runs_require_matrix; [exact Hj|exact HT|exact HTn|].
  apply runs_bind. eapply runs_require_matrix; [exact Hj|exact (proj1 machines_matrix)|exact (proj2 machines_matrix)|].
  rewrite !Z.eqb_refl. cbn [andb negb]. apply runs_bind. apply runs_ret.
  replace ((Z.of_nat jobs =? 0) || (Z.of_nat k =? 0))%Z with false by (symmetry; rewrite orb_false_iff, !Z.eqb_neq; lia).
  apply runs_bind. apply runs_ret. rewrite machines_from_0, !Nat2Z.id, machines_ok. cbn [negb]. apply runs_bind. apply runs_ret.
  apply runs_bind. assert (HH : forall m (Q : Z -> pym -> Prop), Q horizon m -> runs (match bound with
      | None => ret (fold_right Z.add 0%Z (concat times)) | Some u => if (u <? 1)%Z then raise else ret u end) m Q).
  { intros m Q HQ. unfold horizon in HQ. destruct bound as [u|]; [|now apply runs_ret]. specialize (Hbound eq_refl).
    destruct (Z.ltb_spec u 1); [lia|now apply runs_ret]. }
  apply HH. clear HH. rewrite zmatrix_machines. replace (zmatrix times) with (concat T) by (unfold T, zmatrix; now rewrite concat_map).
  apply runs_bind. eapply runs_constant with (dv := dv) (B := nobody); [apply nobody_open|]. intros t m1 _ L1 S1 F1. advance S1.
  apply runs_bind. eapply runs_constant with (dv := dv); [exact O|]. intros mach m2 _ L2 S2 F2. advance S2.
  pose proof horizon_pos as HP.
  apply runs_bind. unfold integer. replace ((_ && _) && (_ && _))%Z with true by (symmetry; rewrite !andb_true_iff, !Z.leb_le; lia). cbv zeta iota.
  replace ((horizon <? 0) || _ || _)%Z with false by (symmetry; rewrite !orb_false_iff, !Z.ltb_ge; lia).
  apply runs_emit_dec with (B := nobody) (dv := dv); [exact O|reflexivity|].
  intros st m3 Hst _ S3 F3. advance S3. assert (st = 2) as ->. { rewrite Hst, L2, L1. reflexivity. } rewrite Hdv in F3.
  assert (SZ : shape_to_size [Z.of_nat jobs; Z.of_nat k] = Z.of_nat (jobs * k)) by (rewrite size2; clear - Hsz Hj; nia).
  assert (DY : forall n, dynamic [Z.of_nat n; Z.of_nat k] = false) by (intros n; cbn; destruct (Z.ltb_spec (Z.of_nat n) 0); [lia|reflexivity]).
  assert (PR : forall n, prod [Z.of_nat n; Z.of_nat k] = Z.of_nat (n * k)) by (intros n; cbn; lia).
  apply runs_bind. eapply runs_same; [exact O|exact F3|exact F1|discriminate|discriminate| |apply DY| | |].
  { rewrite SZ. lia. } { rewrite PR. f_equal. symmetry. now apply concat_len. } { now rewrite (concat_len HS), (concat_len HT). }
  intros e m4 S4 F4. advance S4. change (fun p => bop_total BPlus (fst p) (snd p)) with (fun p : num * num => (fst p + snd p)%Qc) in F4.
  rewrite (mzip_concat Qcplus HS HT) in F4. fold E in F4.
  destruct (concat E) as [|a l] eqn:HE. { apply (f_equal (@length _)) in HE. rewrite (concat_len js_E) in HE. cbn in HE. nia. }
  apply runs_bind. eapply runs_max; [exact O|exact F4| |]. { rewrite SZ. nia. }
  intros mk m5 S5 F5. advance S5. rewrite <- HE in F4.
  apply runs_bind. eapply runs_minimize; [exact F5|reflexivity|]. set (m6 := Pym _ _ _).
  assert (K6 : keeps nobody m5 m6) by apply keeps_syms.
  apply (fact_keeps K6) in F1, F2, F3, F4, F5. clear O. assert (O6 : open_ nobody m6) by (apply nobody_open).
  apply runs_bind. eapply jobs_runs; [exact O6|exact F2|exact F3|exact I|exact F4|exact I|]. intros m7 ks G7 HK. grown G7. fold ps.
  unfold zlen. replace (map (fun p => zq (Z.of_nat (fst p))) ps) with (numbers us) by (unfold numbers, us; now rewrite map_map).
  replace (map (fun p => zq (Z.of_nat (snd p))) ps) with (numbers vs) by (unfold numbers, vs; now rewrite map_map).
  apply runs_bind. eapply runs_constant with (dv := dv); [exact O|]. intros u m8 _ _ S8 F8. advance S8.
  apply runs_bind. eapply runs_constant with (dv := dv); [exact O|]. intros v m9 _ _ S9 F9. advance S9.
  assert (NP : (Z.of_nat (length ps) * Z.of_nat k < 2147483648)%Z) by (pose proof (pairs_length jobs) as PL; fold ps in PL; clear - PL Hsz Hk; nia).
  assert (SP : (0 <= shape_to_size [Z.of_nat (length ps); Z.of_nat k])%Z) by (rewrite size2; clear - NP; nia).
  assert (LR : forall D l, matrix jobs k D -> Forall (fun i => i < jobs) l -> length l = length ps -> length (concat (map (fun i => nth i D []) l)) = length ps * k).
  { intros D l0 H1 H2 H3. apply concat_len. now apply rows_m. }
  apply runs_bind. eapply runs_rows; [exact O|exact F4|exact I|exact js_E|exact F8|cbn; lia|exact us_lt|]. intros a1 n1 T1 A1 _. advance T1.
  apply runs_bind. eapply runs_rows; [exact O|exact F3|exact I|exact HS|exact F9|cbn; lia|exact vs_lt|]. intros b1 n2 T2 A2 _. advance T2.
  cbn [app] in A1, A2.
  apply runs_bind. eapply runs_same; [exact O|exact A1|exact A2|discriminate|discriminate|exact SP|apply DY| | |].
  { rewrite PR, (LR _ _ js_E us_lt us_length). reflexivity. } { rewrite (LR _ _ js_E us_lt us_length), (LR _ _ HS vs_lt vs_length). reflexivity. }
  intros c1 n3 T3 C1. advance T3.
  apply runs_bind. eapply runs_rows; [exact O|exact F4|exact I|exact js_E|exact F9|cbn; lia|exact vs_lt|]. intros a2 n4 T4 A3 _. advance T4.
  apply runs_bind. eapply runs_rows; [exact O|exact F3|exact I|exact HS|exact F8|cbn; lia|exact us_lt|]. intros b2 n5 T5 A4 _. advance T5.
  cbn [app] in A3, A4.
  apply runs_bind. eapply runs_same; [exact O|exact A3|exact A4|discriminate|discriminate|exact SP|apply DY| | |].
  { rewrite PR, (LR _ _ js_E vs_lt vs_length). reflexivity. } { rewrite (LR _ _ js_E vs_lt vs_length), (LR _ _ HS us_lt us_length). reflexivity. }
  intros c2 n6 T6 C2. advance T6.
  apply runs_bind. eapply runs_same; [exact O|exact C1|exact C2|discriminate|discriminate|exact SP|apply DY| | |].
  { rewrite PR, map_length, combine_length, (LR _ _ js_E us_lt us_length), (LR _ _ HS vs_lt vs_length). lia. }
  { rewrite !map_length, !combine_length, (LR _ _ js_E us_lt us_length), (LR _ _ HS vs_lt vs_length), (LR _ _ js_E vs_lt vs_length), (LR _ _ HS us_lt us_length). lia. }
  intros c3 n7 T7 C3. advance T7.
  apply runs_bind. eapply runs_all; [exact O|exact C3|]. intros c4 n8 T8 C4. advance T8. fold pairs_ok in C4.
  assert (K : steps nobody m7 n8) by exact (steps_trans S8 (steps_trans S9 (steps_trans T1 (steps_trans T2 (steps_trans T3 (steps_trans T4 (steps_trans T5 (steps_trans T6 (steps_trans T7 T8))))))))).
  apply runs_bind. eapply runs_constrain; [exact O|exact C4|reflexivity|]. intros n9 G9. grown G9. apply runs_ret.
  assert (GG : grows nobody (ks ++ [c4]) m6 n9) by exact (grows_trans (grows_step G7 K) G9).
  destruct GG as (_ & OB & CO & _). cbn in OB, CO.
  assert (C0 : p_cons m5 = []).
  { repeat match goal with S : steps _ _ _ |- _ => destruct S as (_ & _ & ? & _) end.
    repeat match goal with H : p_cons ?m = _ |- context [p_cons ?m] => rewrite H end. reflexivity. }
  rewrite C0 in CO. cbn [app] in CO. split; [reflexivity|]. split.
  { destruct F3 as [[q E3] _]. do 2 eexists. exact E3. }
  split.
  { exists (fold_left qmax l a). split; [now apply last_end_max|]. exists mk. split; [exact OB|]. exact (fact_yields F5). }
  destruct n9 as [sy ob co]. cbn [p_cons p_obj] in *. subst co. eapply holds_feasible with (B := nobody) (m := Pym sy ob (ks ++ [c4])) (bs := map job_ok (seq 0 jobs) ++ [pairs_ok]).
  - apply Forall2_app; [|constructor; [|constructor]].
    + eapply Forall2_imp; [|exact HK]. intros y b. apply holds_keeps. exact (keeps_trans (steps_keeps K) (proj1 G9)).
    + do 3 eexists. exact C4.
  - rewrite Forall_app, Forall_map. split.
    + intros [H1 H2]. inversion H2 as [|? ? H3 _]. split; [|now apply pairs_ok_spec]. intros j p Hjj Hp. rewrite HM1 in Hjj.
      rewrite Forall_forall in H1. refine (proj1 (job_ok_spec Hjj) (H1 j _) p Hp). apply in_seq. lia.
    + intros [H1 H2]. split; [|constructor; [now apply pairs_ok_spec|constructor]]. apply Forall_forall. intros j Hjj. apply in_seq in Hjj.
      apply job_ok_spec; [lia|]. intros p Hp. apply H1; [lia|exact Hp].
Qed.
End JobShop.
