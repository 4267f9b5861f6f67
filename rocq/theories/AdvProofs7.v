(** Filling the output, and initialisation. *)
From Verif Require Import Base SliceModel ShapeModel ShapeSpec ShapeProofs StateDataModel StateDataSpec Replay NodeSpec BinaryModel Num QuadModel PermModel PermSpec PermProofs DedupModel AdvModel AdvSpec AdvProofs AdvProofs2 AdvProofs3 AdvProofs4 AdvProofs5 AdvProofs6.
Local Open Scope Z_scope.

Lemma rank_seq sl : map (fun sub => rank sl sub) (all_idx sl) = map Z.of_nat (seq 0 (length (all_idx sl))).
Proof.
  apply nth_error_ext. intros i. rewrite !nth_error_map, nth_error_seq. destruct (Nat.ltb_spec i (length (all_idx sl))) as [H|H].
  - destruct (all_idx_nth _ _ H) as (idx & -> & _ & E). cbn. now rewrite E.
  - rewrite (proj2 (nth_error_None _ _)) by lia. reflexivity.
Qed.
Lemma NoDup_all_idx sl : NoDup (all_idx sl).
Proof.
  apply (NoDup_map_inv (fun sub => rank sl sub)). rewrite rank_seq. apply FinFun.Injective_map_NoDup; [|apply seq_NoDup]. intros x y. apply Nat2Z.inj.
Qed.

Lemma NoDup_map_on {X Y} (f : X -> Y) l : (forall x y, In x l -> In y l -> f x = f y -> x = y) -> NoDup l -> NoDup (map f l).
Proof.
  induction l as [|h t IH]; intros H N; cbn [map]; [constructor|]. apply NoDup_cons_iff in N. destruct N as [N1 N2]. constructor.
  - intros Hin. apply in_map_iff in Hin. destruct Hin as (y & E & Hy). apply N1. rewrite (H h y); auto; [now left|now right].
  - apply IH; auto. intros x y Hx Hy. apply H; now right.
Qed.

Section Fills.
Variables strict dbg : bool.
Variable A : adv.
Hypothesis OK : adv_ok A.
Variable konst : bool.
Hypothesis SUP : supported A konst.
Hypothesis WF : wf_shape (ad_shape A).
Variable m : nat.
Let spec := ad_spec A.
Let ashape := ad_shape A.

Lemma fill_pts back a j off :
  visits A back (ad_spec A) (cur_shape A a) (ad_istr A) 0 (if ad_b1 A then ad_ind A else 0%nat) (Z.of_nat j * ad_ss A) off =
  map (fun sub => (Z.of_nat j * ad_ss A + offset (SO A) sub, off + offset (SS A) sub)) (order back (sls A (length a))).
Proof.
  rewrite visits_eq.
  - rewrite (cur_now A WF) by exact WF. reflexivity.
  - rewrite (cur_now A WF) by exact WF. apply (now_len A OK WF).
  - rewrite (ok_istr _ OK), wt_len. symmetry. apply (ok_len _ OK).
Qed.

(** One entry, changed. *)
Lemma fill_row v0 M fixed d0 d inp v a arrs n nx j : Good A m inp v a arrs n -> fits ashape a -> (j < n)%nat -> nfit A nx -> (j < nx)%nat ->
  DI v0 M fixed d0 d -> full d -> (length (a_dat d) <= M)%nat ->
  (forall sub, in_range (sls A (length a)) sub -> (pos A j sub < length (a_dat d))%nat) ->
  exists d', fill_subspace strict dbg A FChange a (contrib (strs A) arrs j) j d = Ok d' /\ DI v0 M fixed d0 d' /\ full d' /\
    length (a_dat d') = length (a_dat d) /\
    (forall sub, in_range (sls A (length a)) sub -> nth_error (a_dat d') (pos A j sub) = Some (nth_error a (src A arrs j sub))) /\
    (forall p, (forall sub, in_range (sls A (length a)) sub -> p <> pos A j sub) -> nth_error (a_dat d') p = nth_error (a_dat d) p).
Proof.
  intros G Fa Hj Hnx Hjx I F L Hp. unfold fill_subspace. cbn [is_back]. rewrite fill_pts. unfold order.
  set (pts := map _ (all_idx (sls A (length a)))).
  assert (Hpts : pts = map (fun sub => (Z.of_nat (pos A j sub), srcz A arrs j sub)) (all_idx (sls A (length a)))).
  { apply map_ext_in. intros sub Hs. apply in_all_idx in Hs. f_equal. symmetry. apply (pos_val A OK konst SUP WF nx (length a)); auto. }
  destruct (fill_change_ok strict dbg v0 M fixed a d0 pts d I F L) as (d' & E & I' & F' & L' & W & U).
  - rewrite Hpts, map_map. cbn [fst]. apply NoDup_map_on; [|apply NoDup_all_idx].
    intros x y Hx Hy Exy. apply in_all_idx in Hx, Hy. apply Nat2Z.inj in Exy.
    apply (pos_inj A OK konst SUP WF nx (length a) j x j y) in Exy; tauto.
  - rewrite Hpts. apply Forall_map. apply Forall_forall. intros sub Hs. apply in_all_idx in Hs. cbn [fst snd]. specialize (Hp sub Hs).
    destruct (good_src A OK WF m _ _ _ _ _ j sub G Hj Hs Fa) as (cs & _ & _ & B & _). lia.
  - exists d'. split; [exact E|]. split; [exact I'|]. split; [exact F'|]. split; [exact L'|]. split.
    + intros sub Hs. specialize (W (Z.of_nat (pos A j sub), srcz A arrs j sub)). cbn [fst snd] in W. rewrite Nat2Z.id in W. apply W.
      rewrite Hpts. apply (in_map (fun sub => (Z.of_nat (pos A j sub), srcz A arrs j sub))). apply in_all_idx. exact Hs.
    + intros p Hn. apply U. rewrite Hpts, map_map. cbn [fst]. intros Hin. apply in_map_iff in Hin. destruct Hin as (sub & Es & Hs).
      apply in_all_idx in Hs. apply (Hn sub Hs). lia.
Qed.

(** When every position has its value. *)
Lemma vals_eq inp v a arrs n dat : Good A m inp v a arrs n -> nfit A n -> length dat = length v ->
  (forall j sub, (j < n)%nat -> in_range (sls A (length a)) sub -> nth_error dat (pos A j sub) = Some (nth_error a (src A arrs j sub))) ->
  dat = map Some v.
Proof.
  intros G Hn L H. apply nth_error_ext. intros p. rewrite nth_error_map. destruct (Nat.lt_ge_cases p (length v)) as [Hp|Hp].
  - destruct (pos_onto A OK konst SUP WF n (length a) p Hn) as (j & sub & Hj & Hs & ->); [rewrite <- (g_vlen _ _ _ _ _ _ _ G); lia|].
    rewrite H by auto. rewrite <- (g_val _ _ _ _ _ _ _ G) by auto. destruct (@nth_error_get _ (pos A j sub) v) as [y Ey]; [lia|]. now rewrite Ey.
  - rewrite !(proj2 (nth_error_None _ _)) by lia. reflexivity.
Qed.

(** Offsets of the initial state. *)
Lemma init_offs_ok n sp : forall str arrs offs, length str = length sp -> length arrs = length (pick true sp str) ->
  Forall (fun l => length l = n) arrs -> (forall l x, In l arrs -> In x l -> exists z, x = zq z) -> length offs = n ->
  exists r, init_offs sp str (map still arrs) offs = Ok r /\ length r = n /\
    forall j, (j < n)%nat -> nth j r 0 = nth j offs 0 + contrib (pick true sp str) arrs j.
Proof.
  induction sp as [|[] sp IH]; intros [|s str] arrs offs Ls La Hn Hw Lo; try discriminate Ls.
  - exists offs. cbn. repeat split; auto. intros; lia.
  - cbn [pick Bool.eqb length] in La. destruct arrs as [|l arrs]; [discriminate La|]. cbn [init_offs map still pview].
    apply Forall_inv in Hn as Hl. apply Forall_inv_tail in Hn as Hn'. cbn [pview]. rewrite Hl, Lo, Nat.eqb_refl.
    set (offs1 := map _ (combine _ _)). destruct (IH str arrs offs1) as (r & -> & Lr & Hr).
    + cbn in Ls; lia.
    + cbn in La; lia.
    + exact Hn'.
    + intros l' x Hl' Hx. apply (Hw l' x); auto. now right.
    + unfold offs1. rewrite map_length, combine_length. lia.
    + exists r. split; [reflexivity|]. split; [exact Lr|]. intros j Hj. rewrite Hr by exact Hj. cbn [pick Bool.eqb contrib].
      destruct (@nth_error_get _ j l) as [x Ex]; [lia|]. destruct (@nth_error_get _ j offs) as [o Eo]; [lia|].
      destruct (Hw l x (or_introl eq_refl)) as [z ->]; [eapply nth_error_In; exact Ex|].
      assert (E1 : nth_error offs1 j = Some (o + z * s)).
      { unfold offs1. rewrite nth_error_map. assert (Ec : nth_error (combine offs l) j = Some (o, zq z)).
        { clear - Ex Eo. revert offs l Ex Eo. induction j as [|j IHj]; intros [|o' offs] [|x' l] Ex Eo; try discriminate; cbn in *; [congruence|eauto]. }
        rewrite Ec. cbn [option_map fst snd]. rewrite zq_mult, zq_plus, ztrunc_zq. reflexivity. }
      rewrite (nth_error_nth _ _ _ E1), (nth_error_nth _ _ _ Eo). unfold entry. rewrite Ex, ztrunc_zq. lia.
  - cbn [pick Bool.eqb] in *. cbn [init_offs]. apply IH; auto.
Qed.

Lemma rev_init_ok offs : forall i r g, RevI konst r g -> (forall k, (i <= k)%nat -> g k = None) ->
  RevI konst (rev_init konst i offs r) (fun k => if (i <=? k)%nat then nth_error offs (k - i) else g k).
Proof.
  induction offs as [|o offs IH]; intros i r g H N.
  - cbn [rev_init]. eapply RevI_ext; [|exact H]. intros k. cbv beta. destruct (Nat.leb_spec i k); [|reflexivity]. rewrite N by lia. now destruct (k - i)%nat.
  - cbn [rev_init]. eapply RevI_ext; [|apply (IH (S i) _ (fun k => if (k =? i)%nat then Some o else g k)); [apply rev_add_ok; [apply N; lia|exact H]|]].
    + intros k. cbv beta. destruct (Nat.leb_spec (S i) k) as [H1|H1], (Nat.leb_spec i k) as [H2|H2]; try lia.
      * replace (k - i)%nat with (S (k - S i)) by lia. reflexivity.
      * replace k with i by lia. now rewrite Nat.eqb_refl, Nat.sub_diag.
      * destruct (Nat.eqb_spec k i); [lia|reflexivity].
    + intros k Hk. cbv beta. destruct (Nat.eqb_spec k i); [lia|]. apply N. lia.
Qed.

Record Cl (inp : list (list num)) (v : list num) (d : gdata) a arrs n : Prop := {
  cl_good : Good A m inp v a arrs n;
  cl_nfit : nfit A n;
  cl_fits : fits ashape a;
  cl_dat : a_dat d = map Some v;
  cl_dif : a_dif d = [];
  cl_odif : a_odif d = [];
  cl_osz : a_osz d = n;
  cl_dsz : a_dsz d = length v;
  cl_off : a_off d = map (contrib (strs A) arrs) (seq 0 n);
  cl_rev : RevI konst (a_rev d) (nth_error (a_off d)) }.

Lemma ss_b1 : ad_b1 A = true -> ad_ss A = prod (pick false spec ashape).
Proof.
  intros B. pose proof (ok_ss _ OK) as Ess. pose proof (ok_oshape _ OK) as Eo. pose proof (ok_ostr _ OK) as Est. rewrite B in *. fold spec ashape in Eo.
  pose proof (ok_ind _ OK) as Ei. pose proof (ok_ind1 _ OK) as Ei1. destruct (ad_ishape A) as [|k0 [|? ?]]; cbn [length] in Ei; [| |lia].
  - cbn [app] in Eo. rewrite Ei in Ess. cbn [Nat.eqb] in Ess. rewrite Ess, Est, Eo. destruct (pick false spec ashape) as [|d t]; [reflexivity|].
    cbn [length Nat.eqb]. rewrite wt_cons. cbn [hd prod]. lia.
  - cbn [app] in Eo. rewrite Ei in Ess. rewrite Ess, Est, Eo. cbn [length Nat.eqb Nat.sub]. rewrite wt_cons. reflexivity.
Qed.
Lemma istr_hd : exists d t, ashape = d :: t /\ hd 0 (ad_istr A) = prod t /\ 0 < prod t.
Proof.
  pose proof (ok_ne _ OK) as Ne. fold ashape in Ne. destruct ashape as [|d t] eqn:E; [congruence|]. exists d, t. split; [reflexivity|].
  rewrite (ok_istr _ OK). fold ashape. rewrite E, wt_cons. split; [reflexivity|]. apply (wf_tl A WF d t). exact E.
Qed.
Lemma ostr_b2 n la : ad_b1 A = false -> nfit A n ->
  hd 0 (ad_ostr A) = Z.of_nat n * prod (tl (sls A la)).
Proof.
  intros B Hn. destruct (b2_facts A OK B) as (_ & _ & Ei & Hl). destruct (b2_sls A OK WF la B) as (d & t & s & E1 & E2 & E3 & E4).
  rewrite (ok_ostr _ OK), (ok_oshape _ OK), B, E3, E4. cbn [tl].
  destruct (lead (ad_spec A)) as [|ld] eqn:El; [lia|]. rewrite ins_S, wt_cons. cbn [hd]. rewrite prod_ins. f_equal.
  unfold nfit, fits_len in Hn. rewrite (ok_fix _ OK B) in Hn. rewrite (ok_ind _ OK) in Ei. destruct (ad_ishape A) as [|k0 [|? ?]]; cbn in Ei; try lia. cbn in Hn |- *. lia.
Qed.

Lemma init_ok inp v a arrs n : Good A m inp v a arrs n -> nfit A n -> fits ashape a ->
  exists d, adv_init strict dbg A konst (map still inp) = Ok d /\ Cl inp v d a arrs n.
Proof.
  intros G Hn Fa. pose proof (g_inp _ _ _ _ _ _ _ G) as ->. cbn [map]. unfold adv_init.
  pose proof (g_len _ _ _ _ _ _ _ G) as Hlen. pose proof (g_ne _ _ _ _ _ _ _ G) as Hne.
  assert (E0 : exists l0, rget (map still arrs) 0 = Ok (still l0) /\ length l0 = n).
  { destruct arrs as [|l0 ls]; [congruence|]. exists l0. split; [reflexivity|]. apply Forall_inv in Hlen. exact Hlen. }
  destruct E0 as (l0 & -> & El0). cbn [rbind pview still]. rewrite El0.
  destruct (g_cs _ _ _ _ _ _ _ G) as (cs & Hcs).
  assert (Eoffs : (if (n =? 0)%nat then Ok [] else init_offs (ad_spec A) (ad_istr A) (map still arrs) (repeat 0 n)) = Ok (map (contrib (strs A) arrs) (seq 0 n))).
  { destruct (Nat.eqb_spec n 0) as [->|Hn0]; [reflexivity|].
    destruct (init_offs_ok n (ad_spec A) (ad_istr A) arrs (repeat 0 n)) as (r & -> & Lr & Hr).
    - rewrite (ok_istr _ OK), wt_len. symmetry. apply (ok_len _ OK).
    - rewrite (g_num _ _ _ _ _ _ _ G). apply pick_len. rewrite (now_len A OK WF), (ok_istr _ OK), wt_len. apply (ok_len _ OK).
    - exact Hlen.
    - intros l x Hl Hx. apply In_nth_error in Hx. destruct Hx as [j Hj]. assert (Hjn : (j < n)%nat).
      { rewrite Forall_forall in Hlen. rewrite <- (Hlen l Hl). eapply nth_error_lt; exact Hj. }
      destruct (Hcs j Hjn) as (_ & _ & _ & Hw). eauto.
    - apply repeat_length.
    - f_equal. apply nth_error_ext. intros j. rewrite nth_error_map, nth_error_seq. destruct (Nat.ltb_spec j n) as [Hj|Hj].
      + cbn [option_map Nat.add]. rewrite (nth_error_nth' r 0) by lia. f_equal. rewrite Hr by exact Hj. rewrite nth_repeat. reflexivity.
      + apply nth_error_None. lia. }
  rewrite Eoffs. cbn [rbind]. set (offs := map (contrib (strs A) arrs) (seq 0 n)).
  destruct istr_hd as (d & t & Eash & Eh & Pt). rewrite Eh. destruct (Z.eqb_spec (prod t) 0); [lia|].
  set (dsize := if ad_b1 A then _ else _).
  assert (Eds : dsize = Z.of_nat (length v)).
  { rewrite (g_vlen _ _ _ _ _ _ _ G). unfold dsize. destruct (ad_b1 A) eqn:B.
    - rewrite (b1_sls A OK konst SUP WF _ B), (ss_b1 B). reflexivity.
    - rewrite (ostr_b2 n (length a) B Hn). destruct (b2_sls A OK WF (length a) B) as (d' & t' & s & E1 & E2 & E3 & E4). rewrite E4. cbn [tl prod].
      fold ashape in E1. rewrite Eash in E1. injection E1 as <- <-. rewrite Z.quot_div_nonneg by lia.
      pose proof (fits_prod A OK WF a Fa) as Ep. fold ashape in Ep. rewrite Eash in Ep. unfold shape_now in Ep. cbn [prod] in Ep.
      destruct (Z.ltb_spec d 0); [lia|]. rewrite <- Ep. rewrite Z.div_mul by lia. lia. }
  rewrite Eds. destruct (Z.ltb_spec (Z.of_nat (length v)) 0); [lia|]. rewrite Nat2Z.id.
  set (d0 := a_new konst offs (repeat (Some 0%Qc) (length v))).
  (* fill *)
  assert (Fold : forall k d1, (k <= n)%nat -> DI (map dfl (a_dat d0)) (length v) False d0 d1 -> full d1 -> length (a_dat d1) = length v ->
     (forall j sub, (j < n - k)%nat -> in_range (sls A (length a)) sub -> nth_error (a_dat d1) (pos A j sub) = Some (nth_error a (src A arrs j sub))) ->
     exists d', rfold (fun d io => fill_subspace strict dbg A FChange a (snd io) (fst io) d) d1 (combine (seq (n - k) k) (map (contrib (strs A) arrs) (seq (n - k) k))) = Ok d' /\
       length (a_dat d') = length v /\
       (forall j sub, (j < n)%nat -> in_range (sls A (length a)) sub -> nth_error (a_dat d') (pos A j sub) = Some (nth_error a (src A arrs j sub)))).
  { induction k as [|k IH]; intros d1 Hk I F L W.
    - exists d1. split; [reflexivity|]. split; [exact L|]. rewrite Nat.sub_0_r in W. exact W.
    - cbn [seq map combine rfold fst snd].
      destruct (fill_row (map dfl (a_dat d0)) (length v) False d0 d1 _ v a arrs n n (n - S k)%nat G Fa) as (d2 & -> & I2 & F2 & L2 & W2 & R2); auto; try lia.
      { intros sub Hs. pose proof (pos_lt A OK konst SUP WF n (length a) (n - S k)%nat sub Hn ltac:(lia) Hs) as P. rewrite <- (g_vlen _ _ _ _ _ _ _ G) in P. lia. }
      cbn [rbind]. replace (S (n - S k)) with (n - k)%nat by lia. apply IH; auto; try lia.
      intros j sub Hj Hs. destruct (Nat.eq_dec j (n - S k)) as [->|Nj]; [apply W2; exact Hs|].
      rewrite R2; [apply W; auto; lia|]. intros sub' Hs' Ep. apply (pos_inj A OK konst SUP WF n (length a)) in Ep; auto; try lia. }
  destruct (Fold n d0) as (d' & Ed' & Ld' & Wd').
  - lia.
  - constructor; cbn; [repeat split|apply rp_nil|constructor|constructor].
  - unfold full, d0. cbn [a_new a_dat]. apply Forall_forall. intros x Hx. apply repeat_spec in Hx. subst x. discriminate.
  - unfold d0. cbn [a_new a_dat]. apply repeat_length.
  - rewrite Nat.sub_diag. intros; lia.
  - rewrite Nat.sub_diag in Ed'. fold offs in Ed'. rewrite Ed'. cbn [rbind]. eexists. split; [reflexivity|].
    assert (Edat : a_dat d' = map Some v) by (apply (vals_eq _ v a arrs n _ G Hn); auto).
    constructor; cbn [a_new a_dat a_dif a_odif a_osz a_dsz a_off a_rev]; auto.
    + unfold offs. now rewrite map_length, seq_length.
    + eapply RevI_ext; [|apply (rev_init_ok offs 0 (fun _ => []) (fun _ => None)); [|auto]].
      * intros k. cbv beta. cbn [Nat.leb]. now rewrite Nat.sub_0_r.
      * intros _ o. split; [constructor|]. intros i. split; [intros []|discriminate].
Qed.
End Fills.
