(** Whole files, and what the symbols that are read stand for. *)
From Verif Require Import Base Num SliceModel ShapeModel StateDataModel NodeSpec BinaryModel BasicModel BasicSpec ViewModel ViewSpec ElemModel NaryModel
  ReduceModel BoundsModel PermModel AdvModel GraphSpec PyModel PySpec PyProofs EqModel FileModel FileSpec FileProofs FileProofs2 FileProofs3 FileProofs4.
From Coq Require Import Permutation.
Local Open Scope Z_scope.

Lemma firstn_at {A} n (l : list A) i : (i < n)%nat -> nth_error (firstn n l) i = nth_error l i.
Proof. intros H. rewrite nth_error_firstn. destruct (Nat.ltb_spec i n); [reflexivity|lia]. Qed.

Lemma bind_ok {A B} (x : py A) (f : A -> py B) m a m1 : x m = Ok (a, m1) -> bind x f m = f a m1.
Proof. unfold bind. now intros ->. Qed.

Lemma perm_filter {A} (f : A -> bool) l l' : Permutation l l' -> Permutation (filter f l) (filter f l').
Proof.
  induction 1 as [|x l l' P IH|x y l|l l' l'' P1 IH1 P2 IH2]; cbn [filter].
  - constructor.
  - destruct (f x); [now constructor|exact IH].
  - destruct (f x), (f y); try apply perm_swap; apply Permutation_refl.
  - etransitivity; eassumption.
Qed.

Section File.
Variables (m : pym) (ord : list nat).
Hypothesis Im : inv m.
Hypothesis Lg : legal m ord.
Hypothesis Vw : views_inferable m.

Lemma entries_loop : forall l q m', R m ord q m' -> (forall j x, nth_error l j = Some x -> nth_error ord (q + j) = Some x) ->
  exists es m'', rmap (write_entry m (pos ord)) l = Ok es /\ read_entries q es m' = Ok (tt, m'') /\ R m ord (q + length l) m'' /\ p_obj m'' = p_obj m' /\ p_cons m'' = p_cons m'.
Proof.
  induction l as [|x l IH]; intros q m' Rq H.
  - exists [], m'. cbn [rmap read_entries length]. rewrite Nat.add_0_r. auto.
  - assert (Hx : nth_error ord q = Some x) by (specialize (H 0%nat x eq_refl); now rewrite Nat.add_0_r in H).
    destruct (ord_some _ _ Lg x (nth_error_In _ _ Hx)) as (s & Hs).
    destruct (step m ord Im Lg Vw q m' Rq x s Hx Hs) as (e & m1 & W & B & E & R1 & O1 & O2).
    destruct (IH (S q) m1 R1) as (es & m2 & W2 & E2 & R2 & O3 & O4).
    { intros j y Hy. specialize (H (S j) y Hy). now rewrite Nat.add_succ_r in H. }
    exists (e :: es), m2. cbn [rmap]. rewrite W. cbn [rbind]. rewrite W2. split; [reflexivity|]. cbn [read_entries length]. rewrite B. unfold bind. rewrite E, E2.
    split; [reflexivity|]. rewrite Nat.add_succ_r. split; [exact R2|]. split; congruence.
Qed.

Lemma R_sym q m' o cs : R m ord q m' -> R m ord q (Pym (p_syms m') o cs).
Proof. intros [A B]. split; auto. Qed.
Lemma read_goal q m' x : R m ord q m' -> goal_ok m x -> (pos ord x < q)%nat ->
  (do _ <- array_symbols [pos ord x] ; minimize (pos ord x)) m' = Ok (tt, Pym (p_syms m') (Some (pos ord x)) (p_cons m')) /\
  (do _ <- array_symbols [pos ord x] ; add_constraint (pos ord x)) m' = Ok (tt, Pym (p_syms m') (p_obj m') (p_cons m' ++ [pos ord x])).
Proof.
  intros Rq [A Sz] L. pose proof (mate_arr m ord Lg q m' Rq x A L) as A'. pose proof (mate_shape m ord Lg q m' Rq x A L) as Sh.
  assert (F : Forall (arr m') [pos ord x]) by (constructor; [exact A'|constructor]). unfold bind. rewrite (array_symbols_ok _ _ F).
  destruct A' as (t & T & _). unfold minimize, add_constraint, bind, look. rewrite T. rewrite (shape_at_some _ _ _ T) in Sh. rewrite Sh, Sz. split; reflexivity.
Qed.
Lemma read_cons q : forall cs m', R m ord q m' -> Forall (goal_ok m) cs -> Forall (fun x => (pos ord x < q)%nat) cs ->
  pfor (map (pos ord) cs) (fun _ c => do _ <- array_symbols [c] ; add_constraint c) tt m' = Ok (tt, Pym (p_syms m') (p_obj m') (p_cons m' ++ map (pos ord) cs)).
Proof.
  induction cs as [|c cs IH]; intros m' Rq F L; cbn [map pfor].
  - unfold ret. rewrite app_nil_r. now destruct m'.
  - inversion F; inversion L; subst. pose proof (proj2 (read_goal q m' c Rq ltac:(assumption) ltac:(assumption))) as E. unfold bind at 1. rewrite E.
    rewrite (IH (Pym (p_syms m') (p_obj m') (p_cons m' ++ [pos ord c])) (R_sym _ _ _ _ Rq)) by assumption. cbn [p_syms p_obj p_cons]. now rewrite <- app_assoc.
Qed.

Lemma filter_map {A B} (f : B -> bool) (g : A -> B) l : filter f (map g l) = map g (filter (fun a => f (g a)) l).
Proof. induction l as [|a l IH]; cbn; [reflexivity|]. destruct (f (g a)); cbn; now rewrite IH. Qed.
Lemma in_firstn_pos stop x : In x ord -> existsb (Nat.eqb x) (firstn stop ord) = (pos ord x <? stop)%nat.
Proof.
  intros I. apply pos_at in I. apply Bool.eq_true_iff_eq. rewrite existsb_exists, Nat.ltb_lt. split.
  - intros (y & Hy & E). apply Nat.eqb_eq in E. subst y. apply In_nth_error in Hy as [j Hj]. assert (L : (j < stop)%nat).
    { assert (j < length (firstn stop ord))%nat by (apply nth_error_Some; congruence). rewrite firstn_length in H. lia. }
    rewrite firstn_at in Hj by assumption. rewrite (at_pos ord x j); auto. apply (ord_nodup _ _ Lg).
  - intros L. exists x. split; [|apply Nat.eqb_refl]. apply (nth_error_In _ (pos ord x)). rewrite firstn_at by assumption. exact I.
Qed.

Lemma round_trip only : let stop := if only : bool then num_decisions m else length (p_syms m) in (stop <= length ord)%nat ->
  exists f m', into_file only m ord = Ok f /\ from_file f = Ok m' /\ copy m ord stop m'.
Proof.
  intros stop Hstop. pose proof (ord_nodup _ _ Lg) as ND.
  destruct (entries_loop (firstn stop ord) 0 no_model) as (es & m1 & W & E & R1 & O1 & O2).
  { split; [reflexivity|]. intros x i _ Hi. lia. }
  { intros j x Hj. cbn. assert (L : (j < stop)%nat). { assert (j < length (firstn stop ord))%nat by (apply nth_error_Some; congruence). rewrite firstn_length in H. lia. }
    rewrite firstn_at in Hj by assumption. exact Hj. }
  rewrite firstn_length, Nat.min_l in R1 by assumption. cbn [Nat.add] in R1. cbn [no_model p_obj p_cons] in O1, O2.
  set (cs := filter (fun x => (pos ord x <? stop)%nat) (p_cons m)).
  assert (Gc : Forall (goal_ok m) cs). { apply Forall_forall. intros x Hx. apply filter_In in Hx as [Hx _]. destruct Im as (_ & _ & C). rewrite Forall_forall in C. auto. }
  assert (Lc : Forall (fun x => (pos ord x < stop)%nat) cs). { apply Forall_forall. intros x Hx. apply filter_In in Hx as [_ Hx]. now apply Nat.ltb_lt. }
  set (ob := match p_obj m with Some x => if (pos ord x <? stop)%nat then Some (pos ord x) else None | None => None end).
  assert (EO : match ob with
               | Some i => fun m => if (i <? length (p_syms m))%nat then (do _ <- array_symbols [i] ; minimize i) m else Throw
               | None => ret tt
               end m1 = Ok (tt, Pym (p_syms m1) ob [])).
  { unfold ob. destruct (p_obj m) as [x|] eqn:Ox; [|unfold ret; destruct m1; cbn in *; congruence]. destruct (Nat.ltb_spec (pos ord x) stop) as [L|L]; [|unfold ret; destruct m1; cbn in *; congruence].
    rewrite (proj1 R1). destruct (Nat.ltb_spec (pos ord x) stop); [|lia]. destruct Im as (_ & G & _). rewrite (proj1 (read_goal stop m1 x R1 (G _ Ox) L)). now rewrite O2. }
  exists (File es ob (map (pos ord) cs)), (Pym (p_syms m1) ob (map (pos ord) cs)). split; [|split].
  - unfold into_file. fold stop. rewrite W. cbn [rbind]. rewrite filter_map. reflexivity.
  - unfold from_file. cbn [f_entries f_obj f_cons]. rewrite (bind_ok _ _ _ _ _ E), (bind_ok _ _ _ _ _ EO). rewrite (read_cons stop); auto.
  - split; cbn [p_syms p_obj p_cons].
    + apply R1.
    + intros x i Hx Hi. destruct (proj2 R1 x i Hx Hi) as (s & t & S & T & M1 & M2 & M3 & M4). exists s, t. repeat split; auto.
      rewrite M2. pose proof (fun p Hp => proj1 (before_in _ _ _ (lg_pred _ _ Lg x s p S Hp))) as IP. revert IP. generalize (s_pred s) as ps. clear.
      induction ps as [|p ps IH]; intros IP; cbn [map]; constructor; [apply pos_at, IP; now left|apply IH; intros; apply IP; now right].
    + unfold ob. destruct (p_obj m) as [x|] eqn:Ox; [|discriminate].
      assert (Ix : In x ord). { destruct Im as (_ & G & _). destruct (G _ Ox) as [(t & T & _) _]. eapply ord_in; eauto. }
      destruct (Nat.ltb_spec (pos ord x) stop) as [L|L].
      * exists x. split; auto. now apply pos_at.
      * intros y i Hy Hi. injection Hy as <-. apply at_pos in Hi; auto. lia.
    + assert (E' : filter (fun x => existsb (Nat.eqb x) (firstn stop ord)) (p_cons m) = cs).
      { unfold cs. apply filter_ext_in. intros x Hx. apply in_firstn_pos. destruct Im as (_ & _ & C). rewrite Forall_forall in C. destruct (C _ Hx) as [(t & T & _) _]. eapply ord_in; eauto. }
      rewrite E'. revert Gc. generalize cs. clear - Lg. induction cs as [|c l IH]; intros G; cbn [map]; constructor; inversion G as [|? ? Gc Gl]; subst; auto.
      apply pos_at. destruct Gc as [(t & T & _) _]. eapply ord_in; eauto.
Qed.

(** The decisions are the first symbols. *)
Definition dec_at (x : nat) : bool := match nth_error (p_syms m) x with Some s => decision_cls (s_cls s) | None => false end.
Lemma dec_count : num_decisions m = length (filter dec_at ord).
Proof.
  assert (P : Permutation (filter dec_at ord) (filter dec_at (seq 0 (length (p_syms m))))).
  { apply perm_filter, (lg_all _ _ Lg). }
  rewrite (Permutation_length P). unfold num_decisions.
  assert (G : forall l k, (forall i, nth_error l i = nth_error (p_syms m) (k + i)) -> length (filter (fun s => decision_cls (s_cls s)) l) = length (filter dec_at (seq k (length l)))).
  { induction l as [|s l IH]; intros k H; [reflexivity|]. cbn [length seq filter]. pose proof (H 0%nat) as H0. rewrite Nat.add_0_r in H0. cbn in H0. unfold dec_at at 1. rewrite <- H0.
    assert (E : length (filter (fun s => decision_cls (s_cls s)) l) = length (filter dec_at (seq (S k) (length l)))).
    { apply IH. intros i. specialize (H (S i)). cbn in H. rewrite H. f_equal. lia. }
    destruct (decision_cls (s_cls s)); cbn [length]; congruence. }
  apply G. reflexivity.
Qed.
Lemma dec_le : (num_decisions m <= length ord)%nat.
Proof. rewrite dec_count. clear. induction ord as [|x l IH]; cbn; [lia|]. destruct (dec_at x); cbn; lia. Qed.
Lemma dec_first x i : nth_error ord i = Some x -> dec_at x = (i <? num_decisions m)%nat.
Proof.
  assert (H : forall i j a b, nth_error ord i = Some a -> nth_error ord j = Some b -> dec_at a = true -> dec_at b = false -> (i < j)%nat).
  { intros i0 j a b A B Da Db. unfold dec_at in *. destruct (nth_error (p_syms m) a) as [sa|] eqn:Sa; [|discriminate Da]. destruct (ord_some _ _ Lg b (nth_error_In _ _ B)) as (sb & Sb). rewrite Sb in Db.
    pose proof (lg_dec _ _ Lg a sa b sb Sa Sb Da Db) as Bf. apply before_pos in Bf; [|apply (ord_nodup _ _ Lg)]. rewrite (at_pos ord a i0), (at_pos ord b j) in Bf; auto; apply (ord_nodup _ _ Lg). }
  rewrite dec_count. clear - H. revert x i H. generalize ord as l. induction l as [|y l IH]; intros x i H E; [destruct i; discriminate E|].
  assert (H' : forall i j a b, nth_error l i = Some a -> nth_error l j = Some b -> dec_at a = true -> dec_at b = false -> (i < j)%nat).
  { intros i0 j a b A B Da Db. specialize (H (S i0) (S j) a b A B Da Db). lia. }
  cbn [filter]. destruct (dec_at y) eqn:Dy.
  - destruct i as [|i]; cbn in E.
    + injection E as <-. rewrite Dy. reflexivity.
    + rewrite (IH x i H' E). reflexivity.
  - assert (N : filter dec_at l = []).
    { destruct (filter dec_at l) as [|z t] eqn:F; [reflexivity|]. exfalso. assert (I : In z (filter dec_at l)) by (rewrite F; now left). apply filter_In in I as [I Dz].
      apply In_nth_error in I as [j Hj]. specialize (H (S j) 0%nat z y Hj eq_refl Dz Dy). lia. }
    rewrite N. cbn [length]. destruct (dec_at x) eqn:Dx; [|symmetry; now apply Nat.ltb_ge; lia].
    exfalso. destruct i as [|i]; cbn in E; [congruence|]. specialize (H (S i) 0%nat x y E eq_refl Dx Dy). lia.
Qed.

(** Values. *)
Section Values.
Variables (stop : nat) (m' : pym).
Hypothesis Cp : copy m ord stop m'.
Variables dv dv' : nat -> list num.
Hypothesis Hdv : forall x i, at_ ord x i -> dv' i = dv x.

Lemma pred_small x i s : at_ ord x i -> nth_error (p_syms m) x = Some s -> forall p j, In p (s_pred s) -> at_ ord p j -> (j < i)%nat.
Proof.
  intros Hx S p j Hp Hj. pose proof (lg_pred _ _ Lg x s p S Hp) as B. pose proof (ord_nodup _ _ Lg) as ND. apply before_pos in B; auto. unfold at_ in *.
  rewrite (at_pos ord x i), (at_pos ord p j) in B; auto.
Qed.
Lemma shapes_copy : forall ps qs i, Forall2 (at_ ord) ps qs -> (forall p j, In p ps -> at_ ord p j -> (j < i)%nat) -> (i <= stop)%nat -> shapes_of m' qs = shapes_of m ps.
Proof.
  induction 1 as [|p q ps qs Hq F IH]; intros H L; [reflexivity|]. cbn [shapes_of map]. fold (shapes_of m' qs) (shapes_of m ps). f_equal.
  - assert (q < i)%nat by (eapply H; [now left|exact Hq]). destruct (cp_sym _ _ _ _ Cp p q Hq ltac:(lia)) as (s & t & S & T & _ & _ & Sh & _). unfold shape_at. now rewrite S, T.
  - apply IH; auto. intros p0 j Hp. apply H. now right.
Qed.
Lemma meaning_copy sh c d shs ins : same_op ord sh c d -> hd [] shs = sh -> meaning d shs ins = meaning c shs ins.
Proof.
  intros H Hh. destruct c, d; cbn in H; try discriminate H; try (injection H; intros; subst; reflexivity); try reflexivity.
  - cbn [meaning]. destruct shs as [|s0 [|]]; try reflexivity. cbn in Hh. subst s0. unfold view_fun. destruct ins as [|a [|]]; try reflexivity. destruct (_ <? _); [|reflexivity]. f_equal. f_equal.
    unfold ViewSpec.cur_shape. specialize (H (Z.of_nat (length a) / ShapeSpec.prod (tl sh))). destruct (dynamic sh); congruence.
Qed.
Lemma decided_copy sh c d : same_op ord sh c d -> decided_cls d = decided_cls c.
Proof. destruct c, d; cbn; intros H; congruence || reflexivity. Qed.

Lemma hd_shapes ps : ps <> [] -> hd [] (shapes_of m ps) = shape_at m (hd 0%nat ps).
Proof. destruct ps; [contradiction|reflexivity]. Qed.
Lemma copy_meaning s t i x ins : at_ ord x i -> (i < stop)%nat -> nth_error (p_syms m) x = Some s -> same_op ord (shape_at m (hd 0%nat (s_pred s))) (s_cls s) (s_cls t) -> Forall2 (at_ ord) (s_pred s) (s_pred t) ->
  meaning (s_cls t) (shapes_of m' (s_pred t)) ins = meaning (s_cls s) (shapes_of m (s_pred s)) ins.
Proof.
  intros Hx Hi S So F. rewrite (shapes_copy _ _ i F (pred_small x i s Hx S) ltac:(lia)). destruct (s_pred s) as [|p ps] eqn:P.
  - destruct (s_cls s), (s_cls t); cbn in So; try discriminate So; try (injection So; intros; subst; reflexivity); reflexivity.
  - eapply meaning_copy; [exact So|reflexivity].
Qed.

Lemma values_there x v : yields m dv x v -> forall i, at_ ord x i -> (i < stop)%nat -> yields m' dv' i v.
Proof.
  intros H. induction H as [x s Hs Hc|x s ins v Hs Hc Hp IH Hm] using yields_ind'; intros i Hx Hi.
  - destruct (cp_sym _ _ _ _ Cp x i Hx Hi) as (s' & t & S & T & So & _). assert (s' = s) by congruence. subst s'. rewrite <- (Hdv x i Hx). eapply y_dec; [exact T|]. now rewrite (decided_copy _ _ _ So).
  - destruct (cp_sym _ _ _ _ Cp x i Hx Hi) as (s' & t & S & T & So & F & _). assert (s' = s) by congruence. subst s'.
    eapply y_op with (ins := ins); [exact T|now rewrite (decided_copy _ _ _ So)| |now rewrite (copy_meaning s t i x)].
    pose proof (pred_small x i s Hx Hs) as PS. clear - F IH PS Hi. revert F PS. generalize (s_pred t) as qs. induction IH as [|p w ps ws H IH IH']; intros qs F PS; inversion F as [|? q ? qs' Fq Fr]; subst; constructor.
    + apply H; [exact Fq|]. assert (q < i)%nat by (eapply PS; [now left|exact Fq]). lia.
    + apply IH'; auto. intros p0 j Hp0. apply PS. now right.
Qed.
Lemma values_back i v : yields m' dv' i v -> forall x, at_ ord x i -> (i < stop)%nat -> yields m dv x v.
Proof.
  intros H. induction H as [i t Ht Hc|i t ins v Ht Hc Hp IH Hm] using yields_ind'; intros x Hx Hi.
  - destruct (cp_sym _ _ _ _ Cp x i Hx Hi) as (s & t' & S & T & So & _). assert (t' = t) by congruence. subst t'. rewrite (Hdv x i Hx). eapply y_dec; [exact S|]. now rewrite <- (decided_copy _ _ _ So).
  - destruct (cp_sym _ _ _ _ Cp x i Hx Hi) as (s & t' & S & T & So & F & _). assert (t' = t) by congruence. subst t'.
    eapply y_op with (ins := ins); [exact S|now rewrite <- (decided_copy _ _ _ So)| |now rewrite <- (copy_meaning s t i x)].
    pose proof (pred_small x i s Hx S) as PS. clear - F IH PS Hi. revert F PS. generalize (s_pred s) as ps. induction IH as [|q w qs ws H IH IH']; intros ps F PS; inversion F as [|p ? ps' ? Fq Fr]; subst; constructor.
    + apply H; [exact Fq|]. assert (q < i)%nat by (eapply PS; [now left|exact Fq]). lia.
    + apply IH'; auto. intros p0 j Hp0. apply PS. now right.
Qed.
Lemma values_iff x i v : at_ ord x i -> (i < stop)%nat -> (yields m dv x v <-> yields m' dv' i v).
Proof. intros Hx Hi. split; intros H; [eapply values_there|eapply values_back]; eauto. Qed.
End Values.

(** Objective and constraints of the whole model. *)
Lemma ord_length : length ord = length (p_syms m).
Proof. rewrite (Permutation_length (lg_all _ _ Lg)). apply seq_length. Qed.
Lemma at_lt x i : at_ ord x i -> (i < length (p_syms m))%nat.
Proof. intros H. rewrite <- ord_length. apply nth_error_Some. unfold at_ in H. congruence. Qed.
Section Goals.
Variable m' : pym.
Hypothesis Cp : copy m ord (length (p_syms m)) m'.
Variables dv dv' : nat -> list num.
Hypothesis Hdv : forall x i, at_ ord x i -> dv' i = dv x.
Lemma iff_all x i v : at_ ord x i -> (yields m dv x v <-> yields m' dv' i v).
Proof. intros H. eapply values_iff; eauto. now apply at_lt in H. Qed.
Lemma objective_iff v : objective m dv v <-> objective m' dv' v.
Proof.
  pose proof (cp_obj _ _ _ _ Cp) as O. split.
  - intros (x & Ox & Y). destruct Im as (_ & G & _). destruct (G _ Ox) as [(t & T & _) _]. pose proof (pos_at ord x (ord_in _ _ Lg x t T)) as P.
    destruct (p_obj m') as [i|] eqn:Oi.
    + destruct O as (y & Oy & A). exists i. split; [exact Oi|]. rewrite <- (iff_all y i); [|exact A]. congruence.
    + exfalso. specialize (O x _ Ox P). apply at_lt in P. lia.
  - intros (i & Oi & Y). rewrite Oi in O. destruct O as (x & Ox & A). exists x. split; [exact Ox|]. now rewrite (iff_all x i).
Qed.
Lemma cons_at : Forall2 (at_ ord) (p_cons m) (p_cons m').
Proof.
  pose proof (cp_cons _ _ _ _ Cp) as C. replace (filter _ (p_cons m)) with (p_cons m) in C; [exact C|]. symmetry. apply GraphProofs.filter_noop. intros x Hx. apply existsb_exists. exists x. split; [|apply Nat.eqb_refl].
  rewrite <- ord_length, firstn_all. destruct Im as (_ & _ & G). rewrite Forall_forall in G. destruct (G _ Hx) as [(t & T & _) _]. eapply ord_in; eauto.
Qed.
Lemma feasible_same P : feasible_iff m dv P <-> feasible_iff m' dv' P.
Proof.
  pose proof cons_at as C.
  assert (K : forall bs, Forall2 (fun c b => yields m dv c [b2q b]) (p_cons m) bs <-> Forall2 (fun c b => yields m' dv' c [b2q b]) (p_cons m') bs).
  { induction C as [|x i xs is A C IH]; intros bs; split; intros F; inversion F as [|? b ? bs' F1 F2]; subst; constructor.
    - now apply (iff_all x i). - now apply IH. - now apply (iff_all x i). - now apply IH. }
  split; intros (bs & F & H); exists bs; split; auto; now apply K.
Qed.
End Goals.
End File.
