(** Every array of a typed model has a value. *)
From Coq Require Import Relations Permutation.
From Verif Require Import Base Num SliceModel ShapeModel ShapeSpec StateDataModel NodeSpec NodeShape NodeLib BinaryModel BasicModel BasicSpec ViewModel ViewSpec ElemModel NaryModel ReduceModel BoundsModel
  PermModel PermSpec AdvModel AdvSpec AdvSpec2 AdvProofs5 AdvProofs11 AdvProofs12 DisjointSpec GraphModel GraphSpec ProposeModel ProposeSpec GroupModel GroupSpec GroupProofs3
  BinarySpec ElemSpec NarySpec ReduceSpec PartialModel PartialSpec PartialProps QuadModel QuadSpec PermProofs AdvProps PyModel PySpec GenSpec PyProofs RunModel RunSpec RunSpec2 RunProofs RunProofs2 RunProofs3.
From Verif Require ViewProofs3.
Set Implicit Arguments.

Lemma all_some_in {X Y} (f : X -> option Y) l r : all_some (map f l) = Some r -> forall y, In y r -> exists x, In x l /\ f x = Some y.
Proof.
  revert r. induction l as [|x l IH]; intros r E y Hy; cbn [map all_some] in E; [injection E as <-; contradiction|].
  destruct (f x) as [z|] eqn:Ez; [|discriminate]. destruct (all_some (map f l)) as [t|]; [|discriminate]. injection E as <-. destruct Hy as [<-|Hy]; [exists x; split; [now left|exact Ez]|].
  destruct (IH t eq_refl y Hy) as (x' & H1 & H2). exists x'. split; [now right|exact H2].
Qed.
Lemma read_in {X} (f : X -> nat) (a : list num) l r : all_some (map (fun x => nth_error a (f x)) l) = Some r -> forall y, In y r -> In y a.
Proof. intros E y Hy. destruct (all_some_in _ _ E y Hy) as (x & _ & Ex). eapply nth_error_In; eauto. Qed.

(** ** Reading with index arrays *)
Fixpoint index_list2 (spec : list bool) (dims : list Z) (shs : list (list Z)) : list aindex :=
  match spec, dims, shs with
  | true :: t, d :: ds, s :: r => AArr s 0 true 0%Qc (zq (d - 1)) :: index_list2 t ds r
  | false :: t, d :: ds, _ => ASlice true :: index_list2 t ds shs
  | _, _, _ => []
  end.
Lemma list2_arrays spec : forall dims shs, length dims = length spec -> length (filter (fun b => b) spec) = length shs -> map is_arr (index_list2 spec dims shs) = spec.
Proof.
  induction spec as [|[|] t IH]; intros [|d ds] shs Hd H; try discriminate; cbn [filter] in H; [reflexivity| |].
  - destruct shs as [|s r]; [discriminate|]. cbn [index_list2 map is_arr]. f_equal. apply IH; cbn in *; lia.
  - cbn [index_list2 map is_arr]. f_equal. apply IH; cbn in *; lia.
Qed.
Lemma list2_at spec : forall dims shs k, length dims = length spec -> length (filter (fun b => b) spec) = length shs ->
  nth_error (index_list2 spec dims shs) k = match nth_error (index_list spec shs) k with
    | Some (AArr s c i lo _) => Some (AArr s c i lo (zq (nth k dims 0%Z - 1))) | o => o end.
Proof.
  induction spec as [|[|] t IH]; intros [|d ds] shs k Hd H; try discriminate; cbn [filter] in H; [now destruct k| |].
  - destruct shs as [|s r]; [discriminate|]. cbn [index_list2 index_list]. destruct k as [|k]; [reflexivity|]. cbn [nth_error nth]. apply IH; cbn in *; lia.
  - cbn [index_list2 index_list]. destruct k as [|k]; [reflexivity|]. cbn [nth_error nth]. apply IH; cbn in *; lia.
Qed.
Lemma list_at spec : forall shs k a, nth_error (index_list spec shs) k = Some a -> match a with AArr s c i lo hi => In s shs /\ c = 0 /\ i = true /\ lo = 0%Qc | ASlice f => f = true end.
Proof.
  induction spec as [|[|] t IH]; intros shs k a H; cbn [index_list] in H; [now destruct k| |].
  - destruct shs as [|s r]; [now destruct k|]. destruct k as [|k]; [injection H as <-; cbn; auto|]. apply IH in H. destruct a; [|exact H]. destruct H as (H & ?). split; [now right|assumption].
  - destruct k as [|k]; [injection H as <-; reflexivity|]. now apply IH in H.
Qed.
Lemma list2_honest spec : forall dims shs arrs, length dims = length spec -> length (filter (fun b => b) spec) = length shs ->
  Forall2 (fun d l => Forall (index_of d) l) (pick true spec dims) arrs -> length arrs = length shs -> Forall2 honest (filter is_arr (index_list2 spec dims shs)) arrs.
Proof.
  induction spec as [|[|] t IH]; intros [|d ds] shs arrs Hd H F L; try discriminate; cbn [filter] in H; cbn [pick Bool.eqb] in F.
  - inversion F; subst. constructor.
  - destruct shs as [|s r]; [discriminate|]. inversion F as [|? l ? arrs' F1 F2]; subst. cbn [index_list2 filter is_arr]. constructor; [|apply IH; cbn in *; auto; lia].
    cbn [honest]. unfold between. eapply Forall_impl; [|exact F1]. intros q (i & Hi & ->). split; [eauto|]. split.
    + change 0%Qc with (zq 0). destruct (qleb_spec (zq 0) (zq (Z.of_nat i))) as [|N]; [reflexivity|]. exfalso. apply N. apply zq_le. lia.
    + destruct (qleb_spec (zq (Z.of_nat i)) (zq (d - 1))) as [|N]; [reflexivity|]. exfalso. apply N. apply zq_le. lia.
  - cbn [index_list2 filter is_arr]. apply IH; cbn in *; auto; lia.
Qed.
Lemma adv_value dbg ps spec shs A a arrs n : wf_shape ps -> Forall wf_shape shs -> dynamic ps = false -> adv_new dbg ps (Some 0%Z) (index_list spec shs) = Ok A ->
  length (filter (fun b => b) spec) = length shs -> fits ps a -> Forall2 (fun d l => Forall (index_of d) l) (pick true spec ps) arrs -> length arrs = length shs -> Forall (fun l => length l = n) arrs ->
  exists v, adv_fun ps 0 spec (a :: arrs) = Some v /\ forall y, In y v -> In y a.
Proof.
  intros W Ws D HA El Fa Hi La Ln. pose proof (adv_new_ok _ _ _ _ _ HA) as (OK & E1 & E2). rewrite index_arrays in E2 by exact El.
  assert (Ne : ps <> []) by (rewrite <- E1; apply (ok_ne _ OK)).
  assert (Lp : length ps = length spec) by (rewrite <- E1, <- E2; symmetry; apply (ok_len _ OK)).
  assert (Acc : adv_accepts ps (Some 0%Z) (index_list spec shs) (ad_ishape A)).
  { assert (Wi : forall s c i lo hi, In (AArr s c i lo hi) (index_list spec shs) -> wf_shape s).
    { intros s c i lo hi H. apply In_nth_error in H. destruct H as [k H]. apply list_at in H. rewrite Forall_forall in Ws. now apply Ws. }
    exact (proj1 (proj1 (C35_accepts dbg ps (Some 0%Z) (index_list spec shs) (ad_ishape A) W Ne Wi) (ex_intro _ A (conj HA eq_refl)))). }
  set (ix := index_list2 spec ps shs). assert (Ei : map is_arr ix = spec) by (apply list2_arrays; auto).
  assert (Acc2 : adv_accepts ps (Some 0%Z) ix (ad_ishape A)).
  { destruct Acc as [A1 A2 (src & (i & lo & hi & Hin) & A3) A4 A5 A6]. rewrite index_arrays in A5, A6 by exact El.
    assert (Hback : forall s c i lo hi, In (AArr s c i lo hi) ix -> exists hi', In (AArr s c i lo hi') (index_list spec shs)).
    { intros s c i' lo' hi' H. apply In_nth_error in H. destruct H as [k Hk]. unfold ix in Hk. rewrite list2_at in Hk by auto. destruct (nth_error (index_list spec shs) k) as [[]|] eqn:Ek; try discriminate. injection Hk as <- <- <- <- <-. eexists. eapply nth_error_In; eauto. }
    constructor.
    - rewrite <- (map_length is_arr), Ei. congruence.
    - exact A2.
    - exists src. split.
      + apply In_nth_error in Hin. destruct Hin as [k Hk]. exists i, lo, (zq (nth k ps 0%Z - 1)). apply nth_error_In with k. unfold ix. rewrite list2_at, Hk by auto. reflexivity.
      + intros s c i' lo' hi' H. destruct (Hback _ _ _ _ _ H) as [h Hh]. eapply A3; eauto.
    - intros k s c i' lo' hi' Hk. unfold ix in Hk. rewrite list2_at in Hk by auto. destruct (nth_error (index_list spec shs) k) as [[s0 c0 i0 lo0 hi0|]|] eqn:Ek; try discriminate. injection Hk as <- <- <- <- <-.
      destruct (A4 _ _ _ _ _ _ Ek) as (B1 & B2 & z & B3 & _). split; [exact B1|]. split; [exact B2|]. exists z. split; [exact B3|].
      assert (Ez : nth k ps 0%Z = z).
      { unfold axis_min in B3. destruct (nth_error ps k) as [d|] eqn:Ed; [|discriminate]. rewrite (nth_error_nth _ _ _ Ed). destruct (Nat.eqb_spec k 0) as [->|]; cbn [andb] in B3; [|congruence].
        destruct ps as [|d' t]; [discriminate|]. injection Ed as ->. cbn [dynamic] in D. rewrite D in B3. congruence. }
      rewrite Ez. destruct (qltb_spec (zq (z - 1)) (zq z)) as [|N]; [reflexivity|]. exfalso. apply N. apply zq_lt. lia.
    - intros H. congruence.
    - rewrite Ei. exact A6. }
  destruct (@reads_ok ps (Some 0%Z) ix (ad_ishape A) a arrs n W Acc2 Fa ltac:(congruence) (@list2_honest spec ps shs arrs Lp El Hi La) Ln) as (v & Ev).
  rewrite Ei in Ev. assert (Hz : Z.to_nat (Z.quot 0 (prod (tl ps))) = 0) by (rewrite Z.quot_0_l; [reflexivity|]; destruct W as [Wt _]; assert (0 < prod (tl ps))%Z by (clear - Wt; induction Wt; cbn [prod]; [lia|nia]); lia).
  rewrite Hz in Ev. exists v. split; [exact Ev|]. unfold adv_fun in Ev. destruct arrs as [|l0 ls]; [discriminate|]. destruct (_ && _); [|discriminate]. destruct (all_some _) as [css|]; [|discriminate].
  exact (read_in _ _ _ Ev).
Qed.

(** ** All classes *)
Section Total.
Variables strict dbg : bool.
Variable m : pym.
Variable B : nat -> num -> Prop.
Variable rank : nat -> nat.
Variable dv : nat -> list num.
Hypothesis wf : all_sound strict dbg m.
Hypothesis Hr : ranked m rank.
Hypothesis HB : forall x s, nth_error (p_syms m) x = Some s -> carries m B x s.
Hypothesis Hdv : in_domain m dv.

Definition has (x : nat) (v : list num) : Prop := yields m dv x v /\ fits (shape_at m x) v /\ Forall (B x) v.

Lemma whole_index n q : whole 0 (n - 1) q -> index_of n q.
Proof. intros (z & -> & Hz). exists (Z.to_nat z). rewrite Z2Nat.id by lia. split; [lia|reflexivity]. Qed.
Lemma numbers_index (P : num -> Prop) n p : only (index_of n) P -> Forall (fun i => (Z.of_nat i < n)%Z) p -> Forall P (numbers p).
Proof. intros H F. unfold numbers. apply Forall_map. eapply Forall_impl; [|exact F]. intros i Hi. apply H. exists i. auto. Qed.
Lemma fits_any (v : list num) : fits [-1]%Z v.
Proof. unfold fits, fits_len. cbn. exists (Z.of_nat (length v)). lia. Qed.

Lemma decided_has x s : nth_error (p_syms m) x = Some s -> decided_cls (s_cls s) = true -> has x (dv x).
Proof.
  intros E Hc. split; [now apply y_dec with s|]. unfold shape_at. rewrite E. destruct (HB _ E) as [_ C]. destruct (sound_at wf _ E) as (_ & _ & S). destruct (Hdv x E) as [Al _]. specialize (Al Hc).
  destruct (s_cls s) eqn:Ec; try discriminate; cbn [allowed] in Al.
  - destruct (s_pred s); [|contradiction]. destruct S as (S1 & _). destruct Al as [A1 A2]. split; [unfold fits, fits_len; now rewrite S1|]. eapply Forall_impl; [|exact A2]. exact C.
  - destruct (s_pred s); [|contradiction]. destruct S as (n & En). rewrite En in *. cbn [hd] in *. rewrite Nat2Z.id in Al. destruct Al as (p & Hp & ->). split.
    + unfold fits, fits_len. cbn. destruct (Z.ltb_spec (Z.of_nat n) 0); [lia|]. unfold numbers. rewrite map_length, (Permutation_length Hp), seq_length. lia.
    + apply (numbers_index C). apply Forall_forall. intros i Hi. apply (Permutation_in _ Hp), in_seq in Hi. lia.
  - destruct (s_pred s); [|contradiction]. destruct S as (S1 & ->). destruct Al as (p & Hp & Hn & ->). split; [|apply (numbers_index C); eapply Forall_impl; [|exact Hn]; cbn beta; lia].
    destruct (Z.eqb_spec n 0) as [->|]; [|apply fits_any]. destruct p as [|i p]; [reflexivity|]. inversion Hn; subst. cbn in *. lia.
  - destruct (s_pred s) as [|y [|]]; try contradiction. destruct S as (-> & Hm & Hi & Es). destruct (main_at wf _ Hm eq_refl) as (t & Et & Ect & _). destruct (Hdv main Et) as [_ Sh]. rewrite Ect in Sh. cbn [shared] in Sh.
    destruct Sh as (ls & (_ & P2) & _ & P4). rewrite Es. split; [apply fits_any|]. apply Forall_forall. intros q Hq. apply C. specialize (P4 x i). rewrite E in P4. cbn [option_map] in P4. specialize (P4 ltac:(now rewrite Ec)).
    destruct (P2 q) as [P3 _]. destruct P3 as (z & -> & Hz); [apply in_concat; exists (dv x); split; [eapply nth_error_In; eauto|exact Hq]|]. exists (Z.to_nat z). rewrite Z2Nat.id by lia. split; [lia|reflexivity].
  - destruct (s_pred s) as [|y [|]]; try contradiction. destruct S as (-> & Hm & Hi & Hn & Es). destruct (main_at wf _ Hm eq_refl) as (t & Et & Ect & _). destruct (Hdv main Et) as [_ Sh]. rewrite Ect in Sh. cbn [shared] in Sh.
    destruct Sh as (ls & P2 & P4). specialize (P4 x i). rewrite E in P4. cbn [option_map] in P4. specialize (P4 ltac:(now rewrite Ec)). destruct (bits_rows _ P2 P4) as [L F]. rewrite Es. split.
    + unfold fits, fits_len. cbn. destruct (Z.ltb_spec n 0); [lia|]. rewrite L. lia.
    + eapply Forall_impl; [|exact F]. intros q (z & -> & Hz). destruct C as [C0 C1]. assert (z = 0%Z \/ z = 1%Z) as [->| ->] by lia; [exact C0|exact C1].
  - destruct (s_pred s); [|contradiction]. destruct S as (S1 & _). destruct Al as [A1 A2]. split; [unfold fits, fits_len; now rewrite S1|]. eapply Forall_impl; [|exact A2]. exact C.
Qed.

Lemma F2_one {A C} (P : A -> C -> Prop) a l : Forall2 P [a] l -> exists c, l = [c] /\ P a c.
Proof. intros H. inversion H as [|? c ? r Ha Hx]; subst. inversion Hx; subst. eauto. Qed.
Lemma F2_two {A C} (P : A -> C -> Prop) a b l : Forall2 P [a; b] l -> exists c d, l = [c; d] /\ P a c /\ P b d.
Proof. intros H. inversion H as [|? c ? r Ha Hx]; subst. destruct (F2_one Hx) as (d & -> & Hd). eauto. Qed.
Lemma single_len sh (v : list num) : fits sh v -> single sh = true -> exists q, v = [q].
Proof.
  intros F S. unfold single in S. apply andb_true_iff in S. destruct S as [S1 S2]. apply negb_true_iff in S1. apply Z.eqb_eq in S2. unfold fits, fits_len in F. rewrite S1, S2 in F. destruct v as [|q [|]]; cbn in F; try lia. eauto.
Qed.
Arguments single_len : clear implicits.
Lemma same_len sh (v w : list num) : dynamic sh = false -> fits sh v -> fits sh w -> length v = length w.
Proof. intros D F G. unfold fits, fits_len in *. rewrite D in *. lia. Qed.
Arguments same_len : clear implicits.
Lemma size_static sh : wf_shape sh -> (0 <= shape_to_size sh)%Z -> dynamic sh = false.
Proof.
  intros W H. destruct sh as [|d t]; [reflexivity|]. unfold shape_to_size in H. cbn [dynamic]. destruct (d <? 0)%Z eqn:E; [lia|reflexivity].
Qed.
Arguments size_static : clear implicits.
Lemma zip_forall (P : num -> Prop) f a b : Forall P a -> Forall P b -> (forall p q, P p -> P q -> P (f p q)) -> Forall P (zip_with f a b).
Proof.
  intros Ha. revert b. unfold zip_with. induction Ha as [|x a Hx _ IH]; intros [|y b] Hb Hf; cbn [combine map]; constructor; inversion Hb; subst; auto.
Qed.

Lemma nodup_right {A} (l1 l2 : list A) : NoDup (l1 ++ l2) -> NoDup l2.
Proof. induction l1 as [|x l1 IH]; cbn [app]; intros H; [exact H|]. inversion H; auto. Qed.
Lemma in_sub {A} (l : list A) i k q : In q (firstn i (skipn k l)) -> In q l.
Proof. intros H. rewrite <- (firstn_skipn k l). apply in_or_app. right. rewrite <- (firstn_skipn i (skipn k l)). apply in_or_app. now left. Qed.
Lemma short_has y a : short m y -> yields m dv y a -> (Z.of_nat (length a) < 2147483648)%Z.
Proof.
  intros (s & E & Hn) Ya. assert (Hc : decided_cls (s_cls s) = true) by (destruct (s_cls s); try contradiction; reflexivity). inversion Ya as [y' s' E' _|? s' ? ? E' Hc']; subst; [|congruence]. destruct (Hdv y E) as [Al _]. specialize (Al Hc).
  destruct (sound_at wf _ E) as (_ & _ & S). destruct (s_cls s) eqn:Ec; try contradiction; cbn [allowed] in Al.
  - destruct Al as (p & Hp & Hf & ->). assert (L : length p <= length (seq 0 (Z.to_nat n))). { apply NoDup_incl_length; [exact Hp|]. intros i Hi. rewrite Forall_forall in Hf. apply in_seq. specialize (Hf i Hi). lia. }
    rewrite seq_length in L. unfold numbers. rewrite map_length. destruct (s_pred s); [|contradiction]. lia.
  - destruct (s_pred s) as [|y0 [|]]; try contradiction. destruct S as (-> & Hm & Hi & Es). destruct (main_at wf _ Hm eq_refl) as (t & Et & Ect & Est). pose proof (sound_at wf _ Et) as (_ & _ & St). rewrite Ect in St. destruct (s_pred t); [|contradiction]. destruct St as (Hz & _).
    destruct (Hdv main Et) as [_ Sh]. rewrite Ect in Sh. cbn [shared] in Sh.
    destruct Sh as (ls & (P1 & P2) & _ & P4). specialize (P4 y i). rewrite E in P4. cbn [option_map] in P4. specialize (P4 ltac:(now rewrite Ec)).
    assert (L : length (dv y) <= length (numbers (seq 0 (Z.to_nat n)))).
    { apply NoDup_incl_length.
      - clear - P1 P4. apply nth_error_split in P4. destruct P4 as (l1 & l2 & -> & _). rewrite concat_app in P1. cbn [concat] in P1. apply nodup_right in P1. eapply AdvProofs8.NoDup_app_left; eauto.
      - intros q Hq. destruct (P2 q) as [P3 _]. destruct P3 as (z & -> & Hz'); [apply in_concat; exists (dv y); split; [eapply nth_error_In; eauto|exact Hq]|]. unfold numbers. apply in_map_iff. exists (Z.to_nat z). rewrite Z2Nat.id by lia. split; [reflexivity|]. apply in_seq. lia. }
    unfold numbers in L. rewrite map_length, seq_length in L. lia.
Qed.

Lemma view_from z ix w sh ct l : nth_error (p_syms m) z = Some (Sym (KBasic ix) [w] sh ct) -> yields m dv z l -> exists a, yields m dv w a /\ meaning (KBasic ix) [shape_at m w] [a] = Some l.
Proof.
  intros E Y. inversion Y as [? s' E' Hc|? s' ins ? E' Hc' F Hm]; subst; rewrite E in E'; injection E' as <-; [discriminate|]. cbn [s_pred s_cls] in *. destruct (F2_one F) as (a & -> & Ha). exists a. auto.
Qed.
Lemma same_values z z' l l' : same_size m z z' -> yields m dv z l -> yields m dv z' l' -> length l = length l'.
Proof.
  intros (w & ix & sh & ct & ix' & sh' & ct' & E1 & E2 & _ & H) Y1 Y2. destruct (view_from E1 Y1) as (a & Ya & M1). destruct (view_from E2 Y2) as (b & Yb & M2). assert (b = a) by (eapply yields_unique; eauto). subst b. eapply H; eauto.
Qed.
Lemma brief_value z l : brief m z -> yields m dv z l -> length l <= 1.
Proof. intros (w & ix & sh & ct & E & _ & H) Y. destruct (view_from E Y) as (a & _ & M). eapply H; eauto. Qed.
(** Everything but decisions, from the values of its predecessors. *)
Lemma op_has x s ins : nth_error (p_syms m) x = Some s -> decided_cls (s_cls s) = false -> main_cls (s_cls s) = false -> Forall2 has (s_pred s) ins ->
  exists v, meaning (s_cls s) (shapes_of m (s_pred s)) ins = Some v /\ Forall (B x) v.
Proof.
  intros E Hc Hm F. destruct (HB _ E) as [_ C]. pose proof (sound_at wf _ E) as (_ & _ & S). assert (W : forall y, wf_shape (shape_at m y)) by (intros; eapply wf_at; eauto). clear E.
  destruct s as [c ps sh ct]. cbn [s_cls s_pred s_shape] in *. destruct c; try discriminate; cbn [meaning].
  - destruct ps; [|contradiction]. inversion F; subst. exists v. split; [reflexivity|exact C].
  - destruct ps as [|y [|]]; try contradiction. cbv zeta in S. destruct S as (_ & (p & Hp & Hsh) & S). destruct (F2_one F) as (a & -> & Ya & Fa & Ba). cbn [shapes_of map]. destruct C as [C Cs].
    destruct S as [(D & Dm & _)|(Ey & i & -> & Hi)]; [|].
    2:{ destruct Cs as [Cs|Cs]; [rewrite Ey in Cs; discriminate|]. pose proof (short_has Cs Ya) as La. rewrite Ey in *. pose proof (range_shape _ Hp) as Sp.
        exists (ViewProofs6.shown [] i a). split.
        - apply (ViewProofs6.dy_fun [] [] 8 i [] p); auto; [cbn; auto|rewrite Sp; constructor|]. split; auto.
        - apply Forall_forall. intros q Hq. apply C. rewrite Forall_forall in Ba. apply Ba. unfold ViewProofs6.shown, ViewProofs4.sub in Hq. eapply in_sub, Hq. }
    destruct (ViewProofs3.st_fun _ _ _ _ _ (W y) D (strides_packed _) Dm Hp a Fa) as (w & Ew & Pw & _). exists w. split; [exact Ew|]. apply Forall_forall. intros q Hq. apply C.
    rewrite Forall_forall in Ba. apply Ba. exact (read_in _ _ _ Pw q Hq).
  - destruct ps as [|y ys]; try contradiction. cbv zeta in S. destruct S as (D & A & HA & _ & El & Hi & _). inversion F as [|? a ? arrs (Ya & Fa & Ba) F']; subst. cbn [shapes_of map]. fold (shapes_of m ys) in *. rewrite D.
    destruct C as (C1 & C2 & C3). assert (La : length arrs = length ys) by (clear - F'; induction F'; cbn; congruence).
    assert (Ls : length (filter (fun b => b) spec) = length (shapes_of m ys)) by (unfold shapes_of; now rewrite map_length).
    destruct arrs as [|l0 ls]; [|assert (exists n, Forall (fun l : list num => length l = n) (l0 :: ls)) as [n Hn]].
    { exfalso. destruct ys; [|discriminate]. pose proof (adv_new_ok _ _ _ _ _ HA) as (OK & E1 & E2). rewrite index_arrays in E2 by exact Ls. cbn in Ls.
      destruct (adv_new_inv _ _ _ _ _ HA) as (_ & _ & s & src & i & lo & hi & Hn & _). apply list_at in Hn. destruct Hn as [[] _]. }
    { destruct ys as [|z zs]; [discriminate|]. destruct C3 as [C3|[C3|C3]].
      - destruct zs; [|discriminate]. destruct ls; [|discriminate]. exists (length l0). repeat constructor.
      - exists (length l0). assert (Hst : Forall2 (fun z l => fits (ad_ishape A) l) (z :: zs) (l0 :: ls)).
        { clear - F' Hi. revert Hi. induction F' as [|u w us ws (H1 & H2 & H3) _ IH]; intros Hi; constructor; inversion Hi; subst; auto. congruence. }
        assert (Ds : dynamic (ad_ishape A) = false) by (inversion Hi; inversion C3; subst; congruence). inversion Hst as [|? ? ? ? H0 H1]; subst. constructor; [reflexivity|].
        clear - H0 H1 Ds. induction H1; constructor; auto. symmetry. eapply same_len; eauto.
      - exists (length l0). constructor; [reflexivity|]. cbn [hd tl] in C3. inversion F' as [|? ? ? ? (Y0 & _) F'']; subst. clear - C3 F'' Y0. revert C3. induction F'' as [|u w us ws (Yw & _) _ IH]; intros C3; constructor; inversion C3 as [|? ? C4 C5]; subst; auto. symmetry. eapply same_values; eauto. }
    destruct (@adv_value dbg (shape_at m y) spec (shapes_of m ys) A a (l0 :: ls) n) as (v & Ev & Hv); auto.
    + unfold shapes_of. apply Forall_map, Forall_forall. auto.
    + clear - C2 F'. revert F'. generalize (l0 :: ls). induction C2 as [|d z ds zs Hd _ IH]; intros l F'; inversion F' as [|? w ? ws (H1 & H2 & H3) F2]; subst; constructor; auto. eapply Forall_impl; [|exact H3]. exact Hd.
    + unfold shapes_of. now rewrite map_length.
    + exists v. split; [exact Ev|]. apply Forall_forall. intros q Hq. apply C1. rewrite Forall_forall in Ba. apply Ba. auto.
  - destruct ps as [|y [|z [|]]]; try contradiction. destruct S as (n & Hn & _ & _ & Ey & Ez & _ & _). destruct (F2_two F) as (a & o & -> & (Ya & Fa & Ba) & (Yo & Fo & Bo)). cbn [shapes_of map]. rewrite Ey in *. rewrite Ez in *. cbn [hd length] in *. rewrite Nat2Z.id.
    destruct C as [C1 C2]. assert (exists zs, o = numbers zs /\ Forall (fun i => i < n) zs) as (zs & -> & Hz).
    { clear - Bo C2. induction Bo as [|q o Hq _ (zs & -> & Hz)]; [exists []; split; [reflexivity|constructor]|]. destruct (C2 q Hq) as (i & Hi & ->). exists (i :: zs). split; [reflexivity|]. constructor; [lia|exact Hz]. }
    unfold fits, fits_len in Fa, Fo. cbn [dynamic] in Fa, Fo. destruct (Z.ltb_spec (Z.of_nat n) 0); [lia|]. cbn [prod] in *. unfold numbers in Fo. rewrite map_length in Fo.
    unfold numbers. rewrite (perm_fun_val n 2 a zs); [|exact Hz|lia|cbn [Nat.pow]; lia]. eexists. split; [reflexivity|].
    apply Forall_forall. intros q Hq. unfold pvals in Hq. apply in_map_iff in Hq. destruct Hq as (i & <- & Hi). apply C1. rewrite Forall_forall in Ba. apply Ba, nth_In.
    apply nidx_in in Hi. destruct Hi as [Li Hi]. destruct i as [|i [|j [|]]]; try discriminate. cbn [map nrank length]. 
    inversion Hi as [|? ? Hi1 Hi2]; subst. inversion Hi2 as [|? ? Hj1 _]; subst.
    assert (G : forall k, k < n -> nth k zs 0 < n) by (intros k Hk; rewrite Forall_forall in Hz; apply Hz, nth_In; lia). pose proof (G i Hi1). pose proof (G j Hj1). nia.
  - destruct ps as [|y [|]]; try contradiction. destruct S as [S _]. destruct (F2_one F) as (a & -> & _ & _ & Ba). exists (map (uop_func (fun x => x) o) a). split; [destruct o; try reflexivity; contradiction|].
    apply Forall_map. eapply Forall_impl; [|exact Ba]. exact C.
  - destruct ps as [|y [|z [|]]]; try contradiction. destruct S as (S1 & S2 & S3). destruct C as [C1 C2]. destruct (F2_two F) as (a & b & -> & (Ya & Fa & Ba) & (Yb & Fb & Bb)). cbn [shapes_of map].
    assert (Hv : exists v, bin_fun (bop_total o) (shape_at m y) (shape_at m z) [a; b] = Some v /\ Forall (B x) v).
    { cbn [bin_fun]. assert (Cl : clash (shape_at m y) (shape_at m z) a b = false).
      { unfold clash. destruct C2 as [->|Hl]; [now rewrite xorb_nilpotent|]. apply Nat.eqb_neq in Hl. now rewrite Hl, andb_false_r. }
      rewrite Cl. unfold bin_value. destruct (single (shape_at m y)) eqn:Ey.
      { destruct (single_len _ _ Fa Ey) as [q ->]. eexists. split; [reflexivity|]. apply Forall_map. inversion Ba; subst. eapply Forall_impl; [|exact Bb]. intros p Hp. now apply C1. }
      destruct (single (shape_at m z)) eqn:Ez.
      { destruct (single_len _ _ Fb Ez) as [q ->]. eexists. split; [reflexivity|]. apply Forall_map. inversion Bb; subst. eapply Forall_impl; [|exact Ba]. intros p Hp. now apply C1. }
      unfold BinaryModel.bin_new in S3. destruct (broadcast_shape _ _); cbn [rbind] in S3; try discriminate. rewrite !size_is_one, Ey, Ez in S3 by auto. cbn [orb] in S3.
      destruct ((shape_to_size (shape_at m y) <? 0) || (shape_to_size (shape_at m z) <? 0))%Z eqn:En; [discriminate|]. apply orb_false_iff in En. destruct En as [En1 En2].
      destruct (zlist_eqb_spec (shape_at m y) (shape_at m z)) as [Eq|]; [|discriminate]. rewrite (same_len (shape_at m z) a b); [|apply size_static; auto; lia|congruence|exact Fb]. rewrite Nat.eqb_refl.
      eexists. split; [reflexivity|]. apply Forall_map. apply Forall_forall. intros [p q] Hpq. cbn [fst snd]. rewrite Forall_forall in Ba, Bb. apply C1; [apply Ba; eapply in_combine_l; eauto|apply Bb; eapply in_combine_r; eauto]. }
    destruct o; try exact Hv; contradiction.
  - destruct ps as [|y ys]; [discriminate|]. inversion F as [|? a ? arrs (Ya & Fa & Ba) F']; subst. cbn [shapes_of map] in *. fold (shapes_of m ys) in *.
    assert (Heq : Forall (fun z => shape_at m z = shape_at m y) ys /\ dynamic (shape_at m y) = false).
    { cbn [nary_new] in S. destruct (existsb _ _) eqn:Ex; [discriminate|]. destruct (forallb _ _) eqn:Ef; [|discriminate]. split.
      - apply Forall_forall. intros z Hz. rewrite forallb_forall in Ef. specialize (Ef (shape_at m z)). destruct (zlist_eqb_spec (shape_at m y) (shape_at m z)) as [|N]; [congruence|]. discriminate Ef. right. unfold shapes_of. now apply in_map.
      - apply size_static; auto. cbn [existsb] in Ex. apply orb_false_iff in Ex. lia. }
    destruct Heq as [Heq D].
    assert (Hl : Forall (fun b : list num => length b = length a) arrs).
    { clear - F' Heq D Fa. revert Heq. induction F' as [|z b zs bs (H1 & H2 & H3) _ IH]; intros Heq; constructor; inversion Heq; subst; auto. eapply same_len; [exact D| |exact Fa]. congruence. }
    assert (La : length arrs = length ys) by (clear - F'; induction F'; cbn; congruence).
    unfold nary_fun. cbn [length]. unfold shapes_of. rewrite map_length, La, Nat.eqb_refl.
    assert (Hb : forallb (fun b : list num => length b =? length a) arrs = true). { apply forallb_forall. intros b Hb. rewrite Forall_forall in Hl. apply Nat.eqb_eq. now apply Hl. }
    rewrite Hb. cbn [andb]. eexists. split; [reflexivity|]. destruct C as [C|[C1 C2]]; [apply Forall_forall; auto|]. inversion C1 as [|? ? C0 C1']; subst.
    assert (Ha : Forall (B x) a) by (eapply Forall_impl; [|exact Ba]; exact C0).
    assert (Hall : Forall (Forall (B x)) arrs). { clear - F' C1'. revert C1'. induction F' as [|z b zs bs (H1 & H2 & H3) _ IH]; intros C; constructor; inversion C as [|? ? C1 C2]; subst; auto. eapply Forall_impl; [|exact H3]. exact C1. }
    clear - Ha Hall C2. revert a Ha. induction Hall as [|b bs Hb _ IH]; intros a Ha; cbn [fold_left]; [exact Ha|]. apply IH. now apply zip_forall.
  - destruct ps as [|y [|]]; try contradiction. destruct S as (_ & i & S). destruct (F2_one F) as (a & -> & Ya & Fa & Ba).
    assert (exists q, red_fun o (identity_of o) [a] = Some [q]) as [q Eq].
    { unfold red_fun. destruct (olist (identity_of o) ++ a) as [|q t] eqn:Eo; [exfalso|eauto]. destruct o; try discriminate Eo; cbn in Eo; subst a;
        (unfold red_new in S; destruct (shape_to_size (shape_at m y) <? 0)%Z eqn:E1; [discriminate|]; destruct (shape_to_size (shape_at m y) <? 1)%Z eqn:E2; [discriminate|];
         pose proof (size_static _ (W y) ltac:(lia)) as D; unfold fits, fits_len in Fa; rewrite D in Fa; rewrite static_size in E2 by auto; cbn in Fa; lia). }
    exists [q]. split; [exact Eq|]. repeat constructor. destruct C as [C|(-> & C0 & C)]; [apply C|]. inversion C as [|? ? [Cb C1] _]; subst. pose proof (brief_value Cb Ya) as Hl.
    destruct a as [|p [|? ?]]; cbn [length] in Hl; [|inversion Ba as [|? ? Bp _]; subst|lia]; cbn in Eq; injection Eq as <-.
    + replace (0 + 0)%Qc with 0%Qc by ring. exact C0.
    + replace (0 + (p + 0))%Qc with p by ring. auto.
  - destruct ps as [|c [|y [|z [|]]]]; try contradiction. inversion F as [|? k ? r (Yk & Fk & Bk) F']; subst. destruct (F2_two F') as (a & b & -> & (Ya & Fa & Ba) & (Yb & Fb & Bb)). cbn [shapes_of map where_fun]. destruct C as [C1 C2].
    assert (Ha : Forall (B x) a) by (eapply Forall_impl; [|exact Ba]; exact C1). assert (Hb : Forall (B x) b) by (eapply Forall_impl; [|exact Bb]; exact C2).
    destruct (single (shape_at m c)) eqn:Es.
    { destruct (single_len _ _ Fk Es) as [q ->]. eexists. split; [reflexivity|]. now destruct (q2b q). }
    unfold where_new in S. destruct (zlist_eqb_spec (shape_at m y) (shape_at m z)) as [Eyz|]; [|discriminate]. rewrite size_is_one, Es in S by auto. destruct (zlist_eqb_spec (shape_at m c) (shape_at m y)) as [Ecy|]; [|discriminate].
    destruct (shape_to_size (shape_at m c) <? 0)%Z eqn:En; [discriminate|]. pose proof (size_static _ (W c) ltac:(lia)) as D.
    rewrite (same_len (shape_at m c) k a D Fk) by congruence. rewrite (same_len (shape_at m c) a b D) by congruence. rewrite Nat.eqb_refl. cbn [andb]. eexists. split; [reflexivity|]. apply Forall_map, Forall_forall.
    intros [p [q r]] Hin. cbn [fst snd]. apply in_combine_r in Hin. rewrite Forall_forall in Ha, Hb. destruct (q2b p); [apply Ha; eapply in_combine_l; eauto|apply Hb; eapply in_combine_r; eauto].
  - destruct ps as [|y [|]]; try contradiction. destruct (F2_one F) as (a & -> & _). eexists. split; [reflexivity|]. repeat constructor. apply C.
  - destruct ps as [|y [|]]; try contradiction. destruct (F2_one F) as (a & -> & _ & _ & Ba). exists a. split; [reflexivity|]. eapply Forall_impl; [|exact Ba]. exact C.
  - destruct ps as [|y [|]]; try contradiction. cbv zeta in S. destruct S as (_ & S & _). destruct (F2_one F) as (l & -> & _ & Fa & _). cbn [shapes_of map].
    destruct (C29_axis_sum_value _ _ _ 0%Qc _ (W y) S Fa) as (_ & v & Ev & _). rewrite Nat2Z.id in Ev. exists v. split; [exact Ev|]. apply Forall_forall. auto.
  - destruct ps as [|y [|]]; try contradiction. destruct S as (_ & S & _). destruct (F2_one F) as (a & -> & _ & Fa & _). cbn [q_fun].
    rewrite S in Fa. unfold fits, fits_len in Fa. cbn [dynamic prod] in Fa. destruct (Z.ltb_spec (Z.of_nat (qm_n q)) 0); [lia|]. assert (La : length a = qm_n q) by lia. rewrite La, Nat.eqb_refl.
    eexists. split; [reflexivity|]. repeat constructor. apply C.
Qed.

Lemma op_fits x s ins v : nth_error (p_syms m) x = Some s -> decided_cls (s_cls s) = false -> main_cls (s_cls s) = false -> Forall2 has (s_pred s) ins ->
  meaning (s_cls s) (shapes_of m (s_pred s)) ins = Some v -> fits (s_shape s) v.
Proof.
  intros E Hc Hm F Hv. pose proof (sound_good wf (sound_at wf _ E)) as (G1 & G2 & G3). rewrite <- G1.
  assert (Hs : source_cls (s_cls s) = false) by (destruct (s_cls s); try reflexivity; discriminate). rewrite Hs in G3. destruct G3 as (clean & K & _). eapply (proj1 (K ins v _ _)).
  Unshelve.
  - rewrite G2. unfold shapes_of. clear - F. induction F as [|y w ys ws (H1 & H2 & H3) _ IH]; constructor; auto.
  - unfold fun_of. destruct (s_cls s); try discriminate; exact Hv.
Qed.

Theorem all_have x : array m x -> exists v, has x v.
Proof.
  remember (rank x) as k eqn:Ek. revert x Ek. induction k as [k IH] using (well_founded_induction lt_wf). intros x -> (s & E & Hm).
  destruct (decided_cls (s_cls s)) eqn:Hc; [exists (dv x); eapply decided_has; eauto|]. destruct (HB _ E) as [Ha _]. specialize (Ha Hc). destruct (Hr _ E) as [Hp _].
  assert (exists ins, Forall2 has (s_pred s) ins) as [ins Hi].
  { clear - Ha Hp IH. induction Ha as [|y ys Hy _ IHl]; [exists []; constructor|]. inversion Hp as [|? ? [_ H1] H2]; subst. destruct (IHl H2) as [ins Hi]. destruct (IH _ H1 y eq_refl Hy) as [v Hv]. exists (v :: ins). now constructor. }
  destruct (op_has _ E Hc Hm Hi) as (v & Ev & Bv). exists v. split.
  - apply y_op with s ins; auto. clear - Hi. induction Hi as [|y w ys ws (H1 & _) _ IH]; constructor; auto.
  - split; [|exact Bv]. unfold shape_at. rewrite E. eapply op_fits; eauto.
Qed.
End Total.

Theorem typed_total strict dbg m : all_sound strict dbg m -> grounded m -> typed m -> RunSpec.total m.
Proof. intros H1 [rank H2] [B H3] dv Hd x Hx. destruct (@all_have strict dbg m B rank dv H1 H2 H3 Hd x Hx) as (v & Hv & _). eauto. Qed.
