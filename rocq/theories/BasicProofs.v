From Verif Require Import Base SliceModel SliceSpec SliceProofs ShapeModel ShapeSpec BasicModel BasicSpec.
From Coq Require Import Sorting.Sorted.
Local Open Scope Z_scope.

Lemma sorted_eq (l1 : list Z) : forall l2, StronglySorted Z.lt l1 -> StronglySorted Z.lt l2 -> (forall x, In x l1 <-> In x l2) -> l1 = l2.
Proof.
  induction l1 as [|a l1 IH]; intros [|b l2] S1 S2 H; auto.
  - exfalso. apply (proj2 (H b)). now left.
  - exfalso. apply (proj1 (H a)). now left.
  - inversion S1 as [|? ? S1' F1]; inversion S2 as [|? ? S2' F2]; subst. rewrite Forall_forall in F1, F2.
    assert (E : a = b).
    { destruct (proj1 (H a) (or_introl eq_refl)) as [E|Ha]; [auto|]. destruct (proj2 (H b) (or_introl eq_refl)) as [E|Hb]; [auto|].
      specialize (F1 b Hb). specialize (F2 a Ha). lia. }
    subst b. f_equal. apply IH; auto. intros x. split; intros Hx.
    + destruct (proj1 (H x) (or_intror Hx)) as [E|]; auto. specialize (F1 x Hx). lia.
    + destruct (proj2 (H x) (or_intror Hx)) as [E|]; auto. specialize (F2 x Hx). lia.
Qed.

Lemma in_zseq n x : In x (zseq n) <-> 0 <= x < n.
Proof.
  unfold zseq. rewrite in_map_iff. split.
  - intros [k [<- Hk]]. apply in_seq in Hk. lia.
  - intros Hx. exists (Z.to_nat x). rewrite in_seq. lia.
Qed.
Lemma zseq_length n : length (zseq n) = Z.to_nat n.
Proof. unfold zseq. now rewrite map_length, seq_length. Qed.
Lemma map_zseq_sorted (f : Z -> Z) n : (forall i j, 0 <= i -> i < j -> f i < f j) -> StronglySorted Z.lt (map f (zseq n)).
Proof.
  intros H. unfold zseq. rewrite map_map. generalize (Z.to_nat n) as k. intros k.
  assert (G : forall s, StronglySorted Z.lt (map (fun x => f (Z.of_nat x)) (seq s k))).
  { induction k as [|k IH]; intros s; cbn [seq map]; constructor; auto. apply Forall_forall. intros y Hy.
    apply in_map_iff in Hy as [q [<- Hq]]. apply in_seq in Hq. apply H; lia. }
  apply G.
Qed.
Lemma filter_sorted (f : Z -> bool) l : StronglySorted Z.lt l -> StronglySorted Z.lt (filter f l).
Proof.
  induction 1 as [|a l S IH F]; cbn [filter]; [constructor|]. destruct (f a); auto. constructor; auto.
  apply Forall_forall. intros x Hx. apply filter_In in Hx. rewrite Forall_forall in F. apply F. tauto.
Qed.
Lemma zseq_sorted n : StronglySorted Z.lt (zseq n).
Proof. rewrite <- (map_id (zseq n)). apply map_zseq_sorted. intros; lia. Qed.

Lemma mod0 x m : 0 < m -> (x mod m = 0 <-> exists k, x = k * m).
Proof.
  intros Hm. split.
  - intros E. exists (x / m). pose proof (Z.div_mod x m). lia.
  - intros [k ->]. apply Z_mod_mult.
Qed.

(** The chosen positions of a slice are an arithmetic progression. *)
Lemma chosen_prog d s a k : 0 < sstep s -> 0 <= k -> (forall i, 0 <= i -> (i < k <-> a + i * sstep s < d /\ a + i * sstep s < py_norm d (sstop s))) ->
  (a = Z.max 0 (py_norm d (sstart s)) \/ (k = 0 /\ d <= Z.max 0 (py_norm d (sstart s)))) -> 0 <= a ->
  chosen d (ISlice s) = map (fun i => a + i * sstep s) (zseq k).
Proof.
  intros Hs Hk Hi Ha H0. apply sorted_eq.
  - apply filter_sorted, zseq_sorted.
  - apply map_zseq_sorted. intros i j _ L. nia.
  - intros x. unfold chosen. rewrite filter_In, in_zseq, in_map_iff, !andb_true_iff, Z.leb_le, Z.ltb_lt, Z.eqb_eq, mod0 by auto.
    destruct Ha as [->|[-> Ha]].
    + split.
      * intros [Hx [[H1 H2] [q Eq]]]. exists q. split; [lia|]. apply in_zseq. assert (0 <= q) by nia. split; auto. apply Hi; auto. lia.
      * intros [q [<- Hq]]. apply in_zseq in Hq. destruct (proj1 (Hi q (proj1 Hq)) (proj2 Hq)) as [A B]. split; [nia|]. split; [split; [nia|auto]|]. exists q. lia.
    + split; [intros [Hx [[H1 H2] _]]; lia|]. intros [q [_ Hq]]. apply in_zseq in Hq. lia.
Qed.

Lemma fit_slice d s : 0 < sstep s -> 0 <= d <= SMAX ->
  exists f k, fit s d = Ok f /\ slice_size f = Ok k /\ sstep f = sstep s /\ 0 <= sstart f <= d /\ 0 <= k /\
    sstart f = Z.min d (Z.max 0 (py_norm d (sstart s))) /\
    (1 <= k -> sstart f + (k - 1) * sstep s < d) /\
    chosen d (ISlice s) = map (fun i => sstart f + i * sstep s) (zseq k).
Proof.
  intros Hs Hd. set (cl := fun b => Z.min d (Z.max 0 (py_norm d b))).
  assert (Hb : forall b, fit_bound b (sstep s) d = cl b).
  { intros b. unfold fit_bound, cl, py_norm. destruct (Z.ltb_spec (sstep s) 0); [lia|]. destruct (Z.ltb_spec b 0).
    - destruct (Z.ltb_spec (b + d) 0); lia.
    - destruct (Z.leb_spec d b); lia. }
  unfold fit, mk_slice. cbn [value_or]. destruct (Z.eqb_spec (sstep s) 0); [lia|]. rewrite !Hb.
  set (a := cl (sstart s)). set (b := cl (sstop s)).
  assert (Ra : 0 <= a <= d) by (unfold a, cl; lia). assert (Rb : 0 <= b <= d) by (unfold b, cl; lia).
  exists (Slice a b (sstep s)), (if a <? b then (b - a - 1) / sstep s + 1 else 0). cbn [sstart sstop sstep].
  assert (Hk : 0 <= (if a <? b then (b - a - 1) / sstep s + 1 else 0)).
  { destruct (Z.ltb_spec a b); [|lia]. pose proof (Z.div_pos (b - a - 1) (sstep s)). lia. }
  assert (Hi : forall i, 0 <= i -> (i < (if a <? b then (b - a - 1) / sstep s + 1 else 0) <-> a + i * sstep s < b)).
  { intros i H0. destruct (Z.ltb_spec a b); [|nia]. rewrite div_count by auto. lia. }
  split; [reflexivity|]. split; [|split; [reflexivity|split; [auto|split; [auto|split; [reflexivity|split]]]]].
  - unfold slice_size. cbn [sstart sstop sstep]. destruct (Z.ltb_spec (sstep s) 0); [lia|].
    destruct (Z.ltb_spec a b); [|reflexivity]. destruct (Z.ltb_spec 0 b); [|lia]. rewrite Z.mod_small; [reflexivity|]. unfold UMOD, SMAX in *. lia.
  - intros H1. pose proof (proj1 (Hi ((if a <? b then (b - a - 1) / sstep s + 1 else 0) - 1) ltac:(lia)) ltac:(lia)). lia.
  - apply chosen_prog; auto; try lia.
    + intros i H0. rewrite (Hi i H0). unfold b, cl. split; intros H.
      * split; [lia|]. assert (0 <= i * sstep s) by nia. lia.
      * lia.
    + destruct (Z.le_gt_cases d (Z.max 0 (py_norm d (sstart s)))) as [C|C]; [right|left; unfold a, cl; lia].
      split; auto. assert (a = d) by (unfold a, cl; lia). destruct (Z.ltb_spec a b); lia.
Qed.

Lemma flat_map_map {A B C} (f : B -> list C) (g : A -> B) l : flat_map f (map g l) = flat_map (fun x => f (g x)) l.
Proof. induction l as [|x l IH]; cbn [map flat_map]; congruence. Qed.
Lemma map_flat_map {A B C} (f : B -> C) (g : A -> list B) l : map f (flat_map g l) = flat_map (fun x => map f (g x)) l.
Proof. induction l as [|x l IH]; cbn [flat_map map]; auto. now rewrite map_app, IH. Qed.
Lemma flat_map_ext_in {A B} (f g : A -> list B) l : (forall x, In x l -> f x = g x) -> flat_map f l = flat_map g l.
Proof. intros H. induction l as [|x l IH]; cbn [flat_map]; auto. rewrite (H x (or_introl eq_refl)), IH; auto. intros; apply H; now right. Qed.

(** ** The view selects what it should *)
Lemma parse_ok : forall shape strides idx, accepts shape idx -> packed shape strides -> Forall (fun d => 0 <= d <= SMAX) shape ->
  exists p, parse_loop false (combine shape strides) idx = Ok p /\ p_shape p = sel_shape shape idx /\ elements p = selected shape idx /\
    p_axis0 p = None /\ length (p_strides p) = length (p_shape p).
Proof.
  induction shape as [|d sh IH]; intros [|s st] idx Ha Hp Hd; inversion Ha as [|? i ? r Hi Hr]; subst; try destruct Hp.
  - exists (Parsed [] [] 0 None). repeat split.
  - inversion Hd as [|? ? Hd1 Hd2]; subst.
    destruct (IH st r Hr H0 Hd2) as (p & E & E1 & E2 & E3 & E4). cbn [combine].
    assert (W : exists w, s = 8 * w /\ (w = prod sh \/ d = 1)) by (destruct H as [->|[-> [w [-> _]]]]; eauto).
    destruct W as (w & -> & Hw). assert (Q : forall z, Z.quot (z * (8 * w)) itemsize = z * w).
    { intros z. unfold itemsize. replace (z * (8 * w)) with (z * w * 8) by ring. apply Z.quot_mul. lia. }
    destruct i as [z|sl]; cbn [parse_loop axis_ok] in *.
    + set (z' := if z <? 0 then z + d else z). assert (Ez : z' = py_norm d z) by reflexivity.
      assert (Rz : 0 <= z' < d) by (unfold z'; destruct (Z.ltb_spec z 0); lia).
      destruct (Z.ltb_spec z' 0); [lia|]. destruct (Z.leb_spec d z'); [lia|]. cbn [orb]. rewrite E. cbn [rbind]. eexists. split; [reflexivity|].
      cbn [p_shape p_strides p_start p_axis0 sel_shape selected chosen flat_map]. split; auto. split; [|auto].
      rewrite app_nil_r, <- Ez, <- E2. unfold elements. cbn [p_shape p_strides p_start]. rewrite map_map, Q. apply map_ext. intros v.
      assert (z' * w = z' * prod sh) by (destruct Hw as [->| ->]; [auto|]; assert (z' = 0) by lia; nia). lia.
    + destruct (Z.eqb_spec (sstep sl) 0); [lia|]. destruct (Z.ltb_spec (sstep sl) 0); [lia|].
      destruct (fit_slice d sl Hi Hd1) as (f & k & F1 & F2 & F3 & F4 & F5 & _ & F7 & F8). rewrite F1. cbn [rbind]. rewrite F2. cbn [rbind]. rewrite E. cbn [rbind].
      eexists. split; [reflexivity|]. cbn [p_shape p_strides p_start p_axis0 sel_shape selected]. rewrite F8, map_length, zseq_length, F3, Q. split; [f_equal; auto; lia|].
      split; [|cbn [length]; auto]. rewrite flat_map_map. unfold elements. cbn [p_shape p_strides p_start all_idx]. rewrite map_flat_map.
      apply flat_map_ext_in. intros x Hx. apply in_zseq in Hx. rewrite <- E2. unfold elements. rewrite !map_map. apply map_ext. intros v. cbn [offset].
      replace (x * (sstep sl * (8 * w)) + offset (p_strides p) v) with (offset (p_strides p) v + x * sstep sl * w * 8) by ring.
      rewrite Z.div_add by lia.
      assert (G : (sstart f + x * sstep sl) * w = (sstart f + x * sstep sl) * prod sh).
      { destruct Hw as [->| ->]; [auto|]. assert (sstart f + x * sstep sl < 1) by (specialize (F7 ltac:(lia)); nia).
        assert (0 <= x * sstep sl) by nia. assert (sstart f + x * sstep sl = 0) by lia. nia. }
      nia.
Qed.

(** ** Inference *)
(** An axis of the array with what the index chose on it: first position, and count and step of a slice. *)
Record axs := Axs { x_d : Z; x_w : Z; x_g : Z; x_o : option (Z * Z) }.
Definition x_view (l : list axs) : list (Z * Z) :=
  flat_map (fun x => match x_o x with Some (n, step) => [(step * (8 * x_w x), n)] | None => [] end) l.
Definition x_flat (l : list axs) : Z := fold_right (fun x a => x_g x * x_w x + a) 0 l.
Definition x_dims (l : list axs) : list Z := map x_d l.
Definition x_axes (l : list axs) : list (Z * Z) := map (fun x => (x_d x, 8 * x_w x)) l.
Definition x_pos (x : axs) : list Z :=
  match x_o x with Some (n, step) => map (fun i => x_g x + i * step) (zseq n) | None => [x_g x] end.
Fixpoint x_ok (l : list axs) : Prop :=
  match l with
  | [] => True
  | x :: r => 0 <= x_g x < x_d x /\ (x_w x = prod (x_dims r) \/ (x_d x = 1 /\ prod (x_dims r) <= x_w x)) /\
              match x_o x with Some (n, step) => 0 < step /\ 0 <= n /\ (1 <= n -> x_g x + (n - 1) * step < x_d x) | None => True end /\ x_ok r
  end.

Lemma x_prod l : x_ok l -> 1 <= prod (x_dims l).
Proof. induction l as [|x r IH]; cbn [x_dims map prod x_ok]; [lia|]. intros (H & _ & _ & Hr). specialize (IH Hr). unfold x_dims in IH. nia. Qed.
Lemma x_flat_lt l : x_ok l -> 0 <= x_flat l < prod (x_dims l).
Proof.
  induction l as [|x r IH]; cbn [x_dims map prod x_ok x_flat fold_right]; [lia|]. intros (H & Hw & _ & Hr). specialize (IH Hr). unfold x_dims in *.
  pose proof (x_prod r Hr) as P. unfold x_dims in P. fold (x_flat r). destruct Hw as [->|[E Hw]]; [nia|]. assert (x_g x = 0) by lia. rewrite E. nia.
Qed.
Lemma x_narrow l : x_ok l -> forall v n, In (v, n) (x_view l) -> 8 * prod (x_dims l) <= v -> n <= 1.
Proof.
  induction l as [|x r IH]; [intros _ v n []|]. cbn [x_ok]. intros (H & Hw & Ho & Hr) v n Hin Hv. pose proof (x_prod r Hr) as P.
  cbn [x_view flat_map] in Hin. cbn [x_dims map prod] in Hv. fold (x_dims r) in Hv. apply in_app_or in Hin as [Hin|Hin].
  - destruct (x_o x) as [[n' step]|]; [|destruct Hin]. destruct Hin as [E|[]]. assert (Q : v = step * (8 * x_w x) /\ n = n') by (split; congruence). destruct Q as [-> ->]. clear E. destruct Ho as (Hs & Hn & Hl).
    destruct (Z.le_gt_cases n' 1); auto. specialize (Hl ltac:(lia)). 
    assert (Hm : 1 * step <= (n' - 1) * step) by (apply Z.mul_le_mono_nonneg_r; lia). destruct Hw as [Ew|[E _]]; [|lia].
    rewrite Ew in Hv. assert (x_d x <= step); [|lia]. apply (Z.mul_le_mono_pos_r _ _ (prod (x_dims r))); [lia|]. replace (step * (8 * prod (x_dims r))) with (8 * (step * prod (x_dims r))) in Hv by ring. lia.
  - apply (IH Hr v n Hin). nia.
Qed.

Lemma chosen_out d g n step f : 0 <= g < d -> 0 < step -> 0 <= n -> (1 <= n -> g + (n - 1) * step < d) -> mk_slice (Some g) (Some (g + n * step)) (Some step) = Ok f ->
  exists f', fit f d = Ok f' /\ sstep f' = step /\ chosen d (ISlice f') = map (fun i => g + i * step) (zseq n).
Proof.
  intros Hg Hs Hn Hl E. unfold mk_slice in E. cbn [value_or] in E. destruct (Z.eqb_spec step 0); [lia|]. injection E as <-.
  unfold fit, mk_slice. cbn [sstart sstop sstep value_or]. destruct (Z.eqb_spec step 0); [lia|]. eexists. split; [reflexivity|]. split; [reflexivity|].
  assert (Fg : fit_bound g step d = g) by (unfold fit_bound; destruct (Z.ltb_spec g 0); [lia|]; destruct (Z.leb_spec d g); lia).
  assert (Fs : fit_bound (g + n * step) step d = Z.min d (g + n * step)).
  { unfold fit_bound. destruct (Z.ltb_spec (g + n * step) 0); [nia|]. destruct (Z.leb_spec d (g + n * step)); [|lia]. destruct (Z.ltb_spec step 0); lia. }
  rewrite Fg, Fs.
  assert (Pn : forall z, 0 <= z -> py_norm d z = z) by (intros z Hz; unfold py_norm; destruct (Z.ltb_spec z 0); lia).
  apply (chosen_prog d (Slice g (Z.min d (g + n * step)) step) g n); cbn [sstart sstop sstep]; auto; try lia.
  - intros i Hi. rewrite Pn by nia. split; intros H.
    + specialize (Hl ltac:(lia)). assert (i * step <= (n - 1) * step) by (apply Z.mul_le_mono_nonneg_r; lia). assert (n * step = (n - 1) * step + step) by ring. lia.
    + destruct (Z.lt_ge_cases i n) as [|C]; auto. assert (n * step <= i * step) by (apply Z.mul_le_mono_nonneg_r; lia). lia.
  - left. rewrite Pn by lia. lia.
Qed.

Lemma prog_one g step : map (fun i => g + i * step) (zseq 1) = [g].
Proof. change (zseq 1) with [0]. cbn [map]. f_equal. lia. Qed.

Lemma infer_ok : forall l j, x_ok l -> (forall v n, In (v, n) (firstn j (x_view l)) -> n <= 1) ->
  exists idx, infer_loop (x_axes l) (skipn j (x_view l)) (x_flat l) = Ok idx /\ accepts (x_dims l) idx /\
    sel_shape (x_dims l) idx = map snd (skipn j (x_view l)) /\
    ((forall v n, In (v, n) (x_view l) -> 1 <= n) -> Forall2 (fun x i => chosen (x_d x) i = x_pos x) l idx).
Proof.
  induction l as [|x r IH]; intros j Hx Hj.
  - exists []. cbn. rewrite skipn_nil. repeat split; constructor.
  - pose proof (x_narrow _ Hx) as Nar. pose proof Hx as Hx0. cbn [x_ok] in Hx. destruct Hx as (Hg & Hw & Ho & Hr).
    cbn [x_axes map infer_loop]. fold (x_axes r). pose proof (x_prod r Hr) as P. pose proof (x_flat_lt r Hr) as Fl. pose proof (x_narrow r Hr) as Nr.
    assert (Ww : prod (x_dims r) <= x_w x) by (destruct Hw as [->|[_ ?]]; lia).
    assert (Enum : Z.quot (8 * x_w x) itemsize = x_w x) by (unfold itemsize; rewrite Z.mul_comm; apply Z.quot_mul; lia).
    rewrite Enum. destruct (Z.eqb_spec (x_w x) 0) as [|Hwz]; [lia|].
    assert (Ed : Z.quot (x_flat (x :: r)) (x_w x) = x_g x /\ Z.rem (x_flat (x :: r)) (x_w x) = x_flat r).
    { cbn [x_flat fold_right]. fold (x_flat r). rewrite Z.quot_div_nonneg, Z.rem_mod_nonneg by nia. split.
      - replace (x_g x * x_w x + x_flat r) with (x_flat r + x_g x * x_w x) by ring. rewrite Z.div_add by lia. rewrite Z.div_small by lia. lia.
      - replace (x_g x * x_w x + x_flat r) with (x_flat r + x_g x * x_w x) by ring. rewrite Z.mod_add by lia. apply Z.mod_small. lia. }
    destruct Ed as [-> ->].
    (* the remaining view axes, and the one before which this axis' own one lies *)
    set (own := match x_o x with Some (n, step) => [(step * (8 * x_w x), n)] | None => [] end) in *.
    assert (Ev : x_view (x :: r) = own ++ x_view r) by reflexivity. rewrite Ev in *. clear Ev.
    (* constant *)
    assert (Con : forall j', skipn j' (x_view r) = skipn j (own ++ x_view r) -> (forall v n, In (v, n) (firstn j' (x_view r)) -> n <= 1) ->
       (forall v n, In (v, n) own -> n <= 1) ->
       exists idx, rbind (infer_loop (x_axes r) (skipn j (own ++ x_view r)) (x_flat r)) (fun l => Ok (IInt (x_g x) :: l)) = Ok idx /\ accepts (x_dims (x :: r)) idx /\
         sel_shape (x_dims (x :: r)) idx = map snd (skipn j (own ++ x_view r)) /\
         ((forall v n, In (v, n) (own ++ x_view r) -> 1 <= n) -> Forall2 (fun x i => chosen (x_d x) i = x_pos x) (x :: r) idx)).
    { intros j' E H1 H2. destruct (IH j' Hr H1) as (idx & E1 & E2 & E3 & E4). rewrite <- E, E1. cbn [rbind]. eexists. split; [reflexivity|]. split; [|split].
      - constructor; auto. cbn [axis_ok]. lia.
      - exact E3.
      - intros Hn. constructor.
        + cbn [chosen]. unfold py_norm. destruct (Z.ltb_spec (x_g x) 0); [lia|]. unfold x_pos, own in *. destruct (x_o x) as [[n step]|]; auto.
          assert (n = 1) by (specialize (H2 _ n (or_introl eq_refl)); specialize (Hn _ n (or_introl eq_refl)); lia). subst n. now rewrite prog_one.
        + apply E4. intros v n Hin. apply (Hn v n). apply in_or_app. now right. }
    (* slice *)
    assert (Sli : forall j' v n vs step, skipn j (own ++ x_view r) = (v, n) :: vs -> skipn j' (x_view r) = vs -> (forall v n, In (v, n) (firstn j' (x_view r)) -> n <= 1) ->
       0 < step -> 0 <= n -> (1 <= n -> x_g x + (n - 1) * step < x_d x) -> ((forall v n, In (v, n) (own ++ x_view r) -> 1 <= n) -> map (fun i => x_g x + i * step) (zseq n) = x_pos x) ->
       exists idx, rbind (mk_slice (Some (x_g x)) (Some (x_g x + n * step)) (Some step)) (fun s => rbind (fit s (x_d x)) (fun f => rbind (infer_loop (x_axes r) vs (x_flat r)) (fun l => Ok (ISlice f :: l)))) = Ok idx /\
         accepts (x_dims (x :: r)) idx /\ sel_shape (x_dims (x :: r)) idx = map snd (skipn j (own ++ x_view r)) /\
         ((forall v n, In (v, n) (own ++ x_view r) -> 1 <= n) -> Forall2 (fun x i => chosen (x_d x) i = x_pos x) (x :: r) idx)).
    { intros j' v n vs step E E' H1 Hs Hn Hl Hpos. destruct (IH j' Hr H1) as (idx & E1 & E2 & E3 & E4). rewrite E' in E1, E3.
      assert (Em : exists f, mk_slice (Some (x_g x)) (Some (x_g x + n * step)) (Some step) = Ok f) by (unfold mk_slice; cbn [value_or]; destruct (Z.eqb_spec step 0); [lia|eauto]).
      destruct Em as [f Em]. rewrite Em. cbn [rbind]. destruct (chosen_out (x_d x) (x_g x) n step f Hg Hs Hn Hl Em) as (f' & F1 & F2 & F3). rewrite F1. cbn [rbind]. rewrite E1. cbn [rbind].
      eexists. split; [reflexivity|]. split; [|split].
      - constructor; auto. cbn [axis_ok]. lia.
      - cbn [x_dims map sel_shape]. rewrite F3, map_length, zseq_length, E. cbn [map snd]. f_equal; [lia|]. exact E3.
      - intros Hall. constructor; [rewrite F3; auto|]. apply E4. intros v' n' Hin. apply (Hall v' n'). apply in_or_app. now right. }
    destruct (Nat.eq_dec j 0) as [->|Hj0].
    + (* nothing consumed early *)
      cbn [skipn] in *. unfold own in *. destruct (x_o x) as [[n step]|] eqn:Eo; cbn [app] in *.
      * destruct Ho as (Hs & Hn & Hl). destruct (Z.ltb_spec (step * (8 * x_w x)) (8 * x_w x)); [nia|].
        assert (Eq : Z.quot (step * (8 * x_w x)) (8 * x_w x) = step) by (apply Z.quot_mul; lia). rewrite Eq.
        apply (Sli 0%nat _ n (x_view r) step eq_refl); auto. intros _. unfold x_pos. now rewrite Eo.
      * destruct (x_view r) as [|[v n] vs] eqn:Evr; rewrite ?Evr in Con, Sli, Nr.
        -- apply (Con 0%nat); auto.
        -- destruct (Z.ltb_spec v (8 * x_w x)) as [Hv|Hv].
           ++ apply (Con 0%nat); auto.
           ++ assert (Hn1 : n <= 1) by (apply (Nr v n); [now left|nia]).
              assert (Hn0 : 0 <= n /\ 1 <= Z.quot v (8 * x_w x)).
              { split.
                - assert (In (v, n) (x_view r)) by (rewrite Evr; now left). clear - H Hr. induction r as [|y r IH]; [destruct H|]. cbn [x_view flat_map] in H. apply in_app_or in H. cbn [x_ok] in Hr.
                  destruct H as [H|H]; [|apply IH; tauto]. destruct (x_o y) as [[n' s']|]; [|destruct H]. destruct H as [H|[]]. injection H as <- <-. lia.
                - apply Z.quot_le_lower_bound; lia. }
              apply (Sli 1%nat v n vs _ eq_refl eq_refl); try lia.
              ** intros v' n' [E|[]]. injection E as <- <-. auto.
              ** intros H1. assert (n = 1) by lia. subst n. lia.
              ** intros Hall. specialize (Hall v n (or_introl eq_refl)). assert (n = 1) by lia. subst n. unfold x_pos. rewrite Eo. apply prog_one.
    + (* the first [j] have been consumed *)
      assert (Hown : forall v n, In (v, n) own -> n <= 1).
      { intros v n Hin. apply (Hj v n). unfold own in *. destruct (x_o x) as [[n' s']|]; [|destruct Hin]. destruct j as [|j]; [lia|]. cbn [firstn app]. left. destruct Hin as [Hin|[]]. exact Hin. }
      set (j1 := (j - length own)%nat).
      assert (Lo : (length own <= 1)%nat) by (unfold own; destruct (x_o x) as [[? ?]|]; cbn; lia).
      assert (Esk : skipn j (own ++ x_view r) = skipn j1 (x_view r)) by (rewrite skipn_app, skipn_all2 by lia; reflexivity).
      assert (Hj1 : forall v n, In (v, n) (firstn j1 (x_view r)) -> n <= 1).
      { intros v n Hin. apply (Hj v n). rewrite firstn_app. apply in_or_app. now right. }
      destruct (skipn j (own ++ x_view r)) as [|[v n] vs] eqn:Evs.
      * apply (Con j1); auto.
      * assert (Hin : In (v, n) (x_view r)).
        { rewrite <- (firstn_skipn j1 (x_view r)). apply in_or_app. right. rewrite <- Esk. now left. }
        destruct (Z.ltb_spec v (8 * x_w x)) as [Hv|Hv]; [apply (Con j1); auto|].
        assert (Hn1 : n <= 1) by (apply (Nr v n); auto; nia).
        assert (Hn0 : 0 <= n /\ 1 <= Z.quot v (8 * x_w x)).
        { split.
          - clear - Hin Hr. induction r as [|y r IH]; [destruct Hin|]. cbn [x_view flat_map] in Hin. apply in_app_or in Hin. cbn [x_ok] in Hr.
            destruct Hin as [H|H]; [|apply IH; tauto]. destruct (x_o y) as [[n' s']|]; [|destruct H]. destruct H as [H|[]]. injection H as <- <-. lia.
          - apply Z.quot_le_lower_bound; lia. }
        apply (Sli (Datatypes.S j1) v n vs _ eq_refl); try lia.
        -- clear - Esk. revert Esk. generalize (x_view r) as l. induction j1 as [|k IHk]; intros [|a l] E; try discriminate E; cbn [skipn] in *; [congruence|]. now apply IHk.
        -- intros v' n' Hin'. assert (Ef : firstn (Datatypes.S j1) (x_view r) = firstn j1 (x_view r) ++ [(v, n)]).
           { clear - Esk. revert Esk. generalize (x_view r) as l. induction j1 as [|k IHk]; intros [|a l] E; try discriminate E; cbn [skipn firstn app] in *; [congruence|]. f_equal. now apply IHk. }
           rewrite Ef in Hin'. apply in_app_or in Hin' as [Hin'|[E|[]]]; [now apply (Hj1 v')|]. injection E as <- <-. auto.
        -- intros H1. assert (n = 1) by lia. subst n. lia.
        -- intros Hall. assert (n = 1) by (specialize (Hall v n (in_or_app _ _ _ (or_intror Hin))); lia). subst n. rewrite prog_one. unfold x_pos. unfold own in *.
           destruct (x_o x) as [[n' s']|]; auto. assert (n' = 1) by (specialize (Hown _ n' (or_introl eq_refl)); specialize (Hall _ n' (or_introl eq_refl)); lia). subst. now rewrite prog_one.
Qed.

Lemma axs_of : forall shape strides idx, accepts shape idx -> packed shape strides -> starts_inside shape idx -> Forall (fun d => 1 <= d <= SMAX) shape ->
  exists l p, parse_loop false (combine shape strides) idx = Ok p /\ x_ok l /\ x_dims l = shape /\ x_axes l = combine shape strides /\
    x_view l = combine (p_strides p) (p_shape p) /\ x_flat l = p_start p /\ Forall2 (fun x i => chosen (x_d x) i = x_pos x) l idx.
Proof.
  induction shape as [|d sh IH]; intros [|s st] idx Ha Hp Hs Hd; inversion Ha as [|? i ? r Hi Hr]; subst; try destruct Hp.
  - exists [], (Parsed [] [] 0 None). repeat split. constructor.
  - inversion Hd as [|? ? Hd1 Hd2]; inversion Hs as [|? ? ? ? Hs1 Hs2]; subst.
    destruct (IH st r Hr H0 Hs2 Hd2) as (l & p & E & E1 & E2 & E3 & E4 & E5 & E6). cbn [combine].
    assert (W : exists w, s = 8 * w /\ (w = prod sh \/ (d = 1 /\ prod sh <= w))) by (destruct H as [->|[-> [w [-> Hw]]]]; eauto).
    destruct W as (w & -> & Hw). assert (Q : forall z, Z.quot (z * (8 * w)) itemsize = z * w).
    { intros z. unfold itemsize. replace (z * (8 * w)) with (z * w * 8) by ring. apply Z.quot_mul. lia. }
    destruct i as [z|sl]; cbn [parse_loop axis_ok] in *.
    + set (z' := if z <? 0 then z + d else z). assert (Ez : z' = py_norm d z) by reflexivity.
      assert (Rz : 0 <= z' < d) by (unfold z'; destruct (Z.ltb_spec z 0); lia).
      destruct (Z.ltb_spec z' 0); [lia|]. destruct (Z.leb_spec d z'); [lia|]. cbn [orb]. rewrite E. cbn [rbind]. exists (Axs d w z' None :: l). eexists. split; [reflexivity|].
      cbn [p_shape p_strides p_start p_axis0 x_ok x_d x_w x_g x_o x_dims x_axes map x_view flat_map x_flat fold_right app]. fold (x_dims l) (x_axes l) (x_view l) (x_flat l).
      rewrite Q, E2, E3, E4, E5. repeat split; auto; try lia.
    + destruct (Z.eqb_spec (sstep sl) 0); [lia|]. destruct (Z.ltb_spec (sstep sl) 0); [lia|].
      destruct (fit_slice d sl Hi ltac:(lia)) as (f & k & F1 & F2 & F3 & F4 & F5 & F6 & F7 & F8). rewrite F1. cbn [rbind]. rewrite F2. cbn [rbind]. rewrite E. cbn [rbind].
      exists (Axs d w (sstart f) (Some (k, sstep sl)) :: l). eexists. split; [reflexivity|].
      cbn [p_shape p_strides p_start p_axis0 x_ok x_d x_w x_g x_o x_dims x_axes map x_view flat_map x_flat fold_right app combine]. fold (x_dims l) (x_axes l) (x_view l) (x_flat l).
      rewrite Q, E2, E3, E4, E5, F3. repeat split; auto; try lia.
Qed.

Lemma selected_length : forall shape idx, accepts shape idx -> Z.of_nat (length (selected shape idx)) = prod (sel_shape shape idx).
Proof.
  induction shape as [|d sh IH]; intros idx Ha; inversion Ha as [|? i ? r Hi Hr]; subst; [reflexivity|]. specialize (IH r Hr). cbn [selected].
  assert (L : forall l, Z.of_nat (length (flat_map (fun x => map (fun o => x * prod sh + o) (selected sh r)) l)) = Z.of_nat (length l) * prod (sel_shape sh r)).
  { induction l as [|x l IHl]; cbn [flat_map length]; [lia|]. rewrite app_length, map_length. nia. }
  rewrite L. destruct i as [z|s]; cbn [sel_shape prod chosen length]; lia.
Qed.
Lemma prod_0 l : In 0 l -> prod l = 0.
Proof. induction l as [|a l IH]; intros H; [destruct H|]. cbn [prod]. destruct H as [->|H]; [lia|]. rewrite IH; auto. lia. Qed.
Lemma selected_ext : forall (l : list axs) idx idx', Forall2 (fun x i => chosen (x_d x) i = x_pos x) l idx -> Forall2 (fun x i => chosen (x_d x) i = x_pos x) l idx' ->
  selected (x_dims l) idx = selected (x_dims l) idx'.
Proof.
  induction l as [|x l IH]; intros idx idx' H H'; inversion H as [|? i ? r Hi Hr]; inversion H' as [|? i' ? r' Hi' Hr']; subst; [reflexivity|].
  cbn [x_dims map selected]. rewrite Hi, Hi'. fold (x_dims l). now rewrite (IH r r').
Qed.

(** What is inferred, for the axes of known size. *)
Lemma infer_back : forall shape strides idx p, accepts shape idx -> packed shape strides -> starts_inside shape idx -> Forall (fun d => 1 <= d <= SMAX) shape ->
  parse_loop false (combine shape strides) idx = Ok p ->
  exists idx', infer_loop (combine shape strides) (combine (p_strides p) (p_shape p)) (p_start p) = Ok idx' /\ accepts shape idx' /\
    sel_shape shape idx' = sel_shape shape idx /\ selected shape idx' = selected shape idx.
Proof.
  intros shape strides idx p Ha Hp Hs Hd E. destruct (axs_of shape strides idx Ha Hp Hs Hd) as (l & p' & E' & X1 & X2 & X3 & X4 & X5 & X6).
  assert (p' = p) by congruence. subst p'. destruct (infer_ok l 0 X1) as (idx' & I1 & I2 & I3 & I4); [intros v n []|]. cbn [skipn] in *. rewrite X3, X4, X5 in I1. rewrite X2 in I2, I3.
  exists idx'. split; auto. split; auto.
  destruct (parse_ok shape strides idx Ha Hp) as (p' & E'' & P1 & _ & _ & P2); [eapply Forall_impl; [|exact Hd]; intros; cbn in *; lia|]. assert (p' = p) by congruence. subst p'.
  assert (Es : map snd (x_view l) = sel_shape shape idx).
  { rewrite X4, <- P1. clear - P2. revert P2. generalize (p_strides p) as a, (p_shape p) as b. induction a as [|x a IH]; intros [|y b] L; try discriminate L; auto. cbn [combine map snd]. f_equal. apply IH. now injection L. }
  rewrite Es in I3. split; auto.
  destruct (in_dec Z.eq_dec 0 (sel_shape shape idx)) as [H0|H0].
  - assert (N : forall i, accepts shape i -> sel_shape shape i = sel_shape shape idx -> selected shape i = []).
    { intros i Hi Ei. pose proof (selected_length shape i Hi) as L. rewrite Ei, (prod_0 _ H0) in L. destruct (selected shape i); [auto|cbn [length] in L; lia]. }
    rewrite (N idx' I2 I3), (N idx Ha eq_refl). reflexivity.
  - rewrite <- X2. apply selected_ext; auto. apply I4. intros v n Hin. assert (In n (map snd (x_view l))) by (apply in_map_iff; exists (v, n); auto).
    assert (0 <= n); [|destruct (Z.eq_dec n 0); [subst; rewrite Es in H; contradiction|lia]].
    clear - X1 Hin. induction l as [|y r IH]; [destruct Hin|]. cbn [x_view flat_map] in Hin. apply in_app_or in Hin. cbn [x_ok] in X1.
    destruct Hin as [H|H]; [|apply IH; tauto]. destruct (x_o y) as [[n' s']|]; [|destruct H]. destruct H as [H|[]]. injection H as <- <-. lia.
Qed.

(** ** Refusals, and views of views *)
Lemma parse_no : forall shape strides idx, length shape = length strides -> length shape = length idx -> Forall (fun d => 0 <= d <= SMAX) shape -> ~ accepts shape idx ->
  parse_loop false (combine shape strides) idx = Throw.
Proof.
  induction shape as [|d sh IH]; intros [|s st] [|i r] L1 L2 Hd Ha; try discriminate; [destruct Ha; constructor|].
  inversion Hd as [|? ? Hd1 Hd2]; subst. cbn [combine parse_loop]. injection L1 as L1. injection L2 as L2.
  assert (D : axis_ok d i -> parse_loop false (combine sh st) r = Throw) by (intros Hi; apply IH; auto; intros H; apply Ha; constructor; auto).
  destruct i as [z|sl]; cbn [axis_ok] in D.
  - set (z' := if z <? 0 then z + d else z). destruct (Z.ltb_spec z' 0); [reflexivity|]. destruct (Z.leb_spec d z'); [reflexivity|]. cbn [orb].
    rewrite D; [reflexivity|]. unfold z' in *. destruct (Z.ltb_spec z 0); lia.
  - destruct (Z.eqb_spec (sstep sl) 0); [reflexivity|]. destruct (Z.ltb_spec (sstep sl) 0); [reflexivity|].
    destruct (fit_slice d sl ltac:(lia) Hd1) as (f & k & F1 & F2 & _). rewrite F1. cbn [rbind]. rewrite F2. cbn [rbind]. rewrite D by lia. reflexivity.
Qed.

Lemma prod_app a b : prod (a ++ b) = prod a * prod b.
Proof. induction a as [|x a IH]; cbn [app prod]; [lia|]. rewrite IH. ring. Qed.
Lemma prod_rev a : prod (rev a) = prod a.
Proof. induction a as [|x a IH]; cbn [rev prod]; auto. rewrite prod_app, IH. cbn [prod]. ring. Qed.
Lemma contig_snoc : forall l d s sd, Forall (fun x => 1 <= fst x) l -> 1 <= d -> contig (l ++ [(d, s)]) sd = Some true ->
  contig l sd = Some true /\ (d = 1 \/ s = sd * prod (map fst l)).
Proof.
  induction l as [|[d1 s1] l IH]; intros d s sd Hl Hd H.
  - cbn [app contig map prod] in *. destruct (Z.leb_spec 0 d); [|lia]. cbn [orb negb] in H. destruct (Z.eqb_spec d 0); [lia|].
    destruct (Z.eqb_spec d 1); [auto|]. destruct (Z.eqb_spec s sd); [split; [auto|right; lia]|discriminate H].
  - inversion Hl as [|? ? H1 H2]; subst. cbn [fst] in H1. cbn [app contig map prod fst] in *. destruct (Z.leb_spec 0 d1); [|lia]. cbn [orb negb] in *. destruct (Z.eqb_spec d1 0); [lia|].
    destruct (negb (d1 =? 1) && negb (s1 =? sd)); [discriminate H|]. apply IH in H as [H ?]; auto. split; auto. destruct H3; auto. right. rewrite H3. ring.
Qed.

Lemma packed_view : forall shape strides idx p, accepts shape idx -> packed shape strides -> Forall (fun d => 1 <= d <= SMAX) shape ->
  parse_loop false (combine shape strides) idx = Ok p -> Forall (fun d => 1 <= d) (p_shape p) -> is_contiguous (p_shape p) (p_strides p) = Some true ->
  packed (p_shape p) (p_strides p) /\ prod (p_shape p) <= prod shape.
Proof.
  induction shape as [|d sh IH]; intros [|s st] idx p Ha Hp Hd E Hn Hc; inversion Ha as [|? i ? r Hi Hr]; subst; try destruct Hp.
  - cbn [combine parse_loop] in E. assert (p = Parsed [] [] 0 None) by congruence. subst p. cbn. split; [auto|lia].
  - inversion Hd as [|? ? Hd1 Hd2]; subst.
    destruct (parse_ok sh st r Hr H0) as (q & Eq & _ & _ & _ & Q4); [eapply Forall_impl; [|exact Hd2]; intros; cbn in *; lia|].
    assert (P1 : 1 <= prod sh) by (clear - Hd2; induction Hd2; cbn [prod]; nia).
    assert (W : exists w, s = 8 * w /\ prod sh <= w) by (destruct H as [->|[-> [w [-> Hw]]]]; eauto; exists (prod sh); split; lia).
    destruct W as (w & -> & Hw). cbn [combine] in E.
    destruct i as [z|sl]; cbn [parse_loop axis_ok] in *.
    + destruct (((if z <? 0 then z + d else z) <? 0) || (d <=? (if z <? 0 then z + d else z))); [discriminate E|]. rewrite Eq in E. cbn [rbind] in E.
      assert (Ep : p_shape q = p_shape p /\ p_strides q = p_strides p).
      { split; [exact (f_equal (fun r => match r with Ok p => p_shape p | _ => [] end) E)|exact (f_equal (fun r => match r with Ok p => p_strides p | _ => [] end) E)]. }
      destruct Ep as [Ep Es]. rewrite <- Ep in Hn, Hc |- *. rewrite <- Es in Hc |- *. destruct (IH st r q Hr H0 Hd2 Eq Hn Hc) as [I1 I2]. split; auto. cbn [prod]. nia.
    + destruct (Z.eqb_spec (sstep sl) 0); [lia|]. destruct (Z.ltb_spec (sstep sl) 0); [lia|].
      destruct (fit_slice d sl Hi ltac:(lia)) as (f & k & F1 & F2 & F3 & F4 & F5 & _ & F7 & _). rewrite F1 in E. cbn [rbind] in E. rewrite F2 in E. cbn [rbind] in E. rewrite Eq in E. cbn [rbind] in E. rewrite F3 in E.
      assert (Ep : Parsed (k :: p_shape q) (sstep sl * (8 * w) :: p_strides q) (Z.quot (sstart f * (8 * w)) itemsize + p_start q) (p_axis0 q) = p) by congruence.
      clear E. rewrite <- Ep in *. clear Ep. cbn [p_shape p_strides] in *.
      inversion Hn as [|? ? N1 N2]; subst. unfold is_contiguous in Hc. cbn [combine rev] in Hc.
      assert (Fe : map fst (combine (p_shape q) (p_strides q)) = p_shape q).
      { clear - Q4. revert Q4. generalize (p_strides q) as a, (p_shape q) as b. induction a as [|x a IH]; intros [|y b] L; try discriminate L; auto. cbn [combine map fst]. f_equal. apply IH. now injection L. }
      apply contig_snoc in Hc as [Hc Hk]; auto.
      * destruct (IH st r q Hr H0 Hd2 Eq N2 Hc) as [I1 I2]. split.
        -- cbn [packed]. split; auto. destruct Hk as [->|Hk].
           ++ right. split; auto. exists (sstep sl * w). split; [ring|]. assert (1 * w <= sstep sl * w) by (apply Z.mul_le_mono_nonneg_r; lia). lia.
           ++ left. rewrite Hk. rewrite map_rev, prod_rev, Fe. unfold itemsize. ring.
        -- cbn [prod]. specialize (F7 N1). assert (1 * (k - 1) <= sstep sl * (k - 1)) by (apply Z.mul_le_mono_nonneg_r; lia). assert (k <= d) by lia.
           assert (1 <= prod (p_shape q)) by (clear - N2; induction N2; cbn [prod]; nia). apply Z.mul_le_mono_nonneg; lia.
      * apply Forall_rev. clear - N2. revert N2. generalize (p_strides q) as a, (p_shape q) as b. intros a b H. revert a. induction H as [|x b Hx Hb IHb]; intros [|y a]; cbn [combine]; constructor; auto.
Qed.
Lemma acc_len shape idx : accepts shape idx -> length shape = length idx.
Proof. induction 1; cbn [length]; congruence. Qed.
Lemma accepts_dec : forall shape idx, {accepts shape idx} + {~ accepts shape idx}.
Proof.
  induction shape as [|d sh IH]; intros [|i r]; [left; constructor|right; intros H; inversion H..|].
  assert (D : {axis_ok d i} + {~ axis_ok d i}).
  { destruct i as [z|s]; cbn [axis_ok]; [|apply Z_lt_dec]. destruct (Z_le_dec (- d) z), (Z_lt_dec z d); [left; lia|right; lia..]. }
  destruct D as [D|D]; [|right; intros H; inversion H; auto]. destruct (IH r) as [E|E]; [left; constructor; auto|right; intros H; inversion H; auto].
Qed.
