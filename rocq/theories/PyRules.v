(** Rules for the operations the generators use, with values as lists. *)
From Verif Require Import Base Num SliceModel ShapeModel ShapeSpec SliceSpec StateDataModel NodeSpec BinaryModel BasicModel BasicSpec BasicProofs ViewModel ElemModel NaryModel
  ReduceModel BoundsModel PermModel AdvModel NarySpec ReduceSpec BinarySpec ElemSpec PermSpec ViewSpec AdvSpec ProposeSpec PyModel GenModel PySpec GenSpec PyProofs PyValues.
Set Implicit Arguments.

(** * Slices of lists *)
Lemma cut_map {A C} (f : A -> C) a b l : map f (cut a b l) = cut a b (map f l).
Proof. unfold cut. rewrite map_length. now rewrite <- firstn_map, <- skipn_map. Qed.
Lemma hi_max n : (Z.of_nat n <= SMAX)%Z -> hi n SMAX = n.
Proof. intros H. unfold hi, py_norm. destruct (Z.ltb_spec SMAX 0) as [E|_]; [unfold SMAX in E; lia|]. lia. Qed.
Lemma cut_init {A} (l : list A) : cut 0 (-1) l = removelast l.
Proof.
  unfold cut, lo, hi, py_norm. cbn [Z.ltb Z.compare]. rewrite removelast_firstn_len. change (Z.to_nat (Z.max 0 0)) with 0. cbn [skipn]. f_equal. lia.
Qed.
Lemma cut_tail {A} (l : list A) : (Z.of_nat (length l) <= SMAX)%Z -> cut 1 SMAX l = tl l.
Proof.
  intros H. unfold cut. rewrite hi_max by exact H. unfold lo, py_norm. cbn [Z.ltb Z.compare]. change (Z.to_nat (Z.max 0 1)) with 1.
  destruct l as [|x l]; [reflexivity|]. cbn [length skipn tl]. apply firstn_all2. lia.
Qed.
Lemma cut_first {A} (l : list A) : cut 0 1 l = firstn 1 l.
Proof.
  unfold cut, lo, hi, py_norm. cbn [Z.ltb Z.compare]. change (Z.to_nat (Z.max 0 0)) with 0. cbn [skipn].
  destruct l as [|x l]; [reflexivity|]. f_equal. cbn [length]. lia.
Qed.
Lemma cut_last {A} (l : list A) d : (Z.of_nat (length l) <= SMAX)%Z -> cut (-1) SMAX l = match l with [] => [] | _ => [last l d] end.
Proof.
  intros H. unfold cut. rewrite hi_max by exact H. unfold lo, py_norm. cbn [Z.ltb Z.compare].
  destruct l as [|x l]; [reflexivity|]. set (k := x :: l) in *. assert (Hk : k <> []) by discriminate.
  replace (Z.to_nat _) with (length k - 1) by (assert (1 <= length k) by (cbn; lia); lia).
  assert (Hr : length (removelast k) = length k - 1) by (rewrite removelast_firstn_len, firstn_length; lia).
  assert (E : skipn (length k - 1) k = [last k d]).
  { rewrite (app_removelast_last d Hk) at 2. rewrite <- Hr, skipn_app, skipn_all, Nat.sub_diag. reflexivity. }
  rewrite E. apply firstn_all2. subst k. cbn [length]. lia.
Qed.
Lemma cut_all {A} (l : list A) : (Z.of_nat (length l) <= SMAX)%Z -> cut 0 SMAX l = l.
Proof.
  intros H. unfold cut. rewrite hi_max by exact H. unfold lo, py_norm. cbn [Z.ltb Z.compare]. change (Z.to_nat (Z.max 0 0)) with 0.
  cbn [skipn]. apply firstn_all2. lia.
Qed.
Lemma cut_one {A} (l : list A) i : cut (Z.of_nat i) (Z.of_nat i + 1) l = match nth_error l i with Some x => [x] | None => [] end.
Proof.
  unfold cut, lo, hi, py_norm. destruct (Z.ltb_spec (Z.of_nat i) 0); [lia|]. destruct (Z.ltb_spec (Z.of_nat i + 1) 0); [lia|].
  destruct (nth_error l i) as [x|] eqn:E.
  - assert (Hi : i < length l) by (apply nth_error_Some; congruence). replace (Z.to_nat _ - _) with 1 by lia. replace (Z.to_nat _) with i by lia.
    apply nth_error_split in E. destruct E as (l1 & l2 & -> & <-). now rewrite skipn_app, skipn_all, Nat.sub_diag.
  - apply nth_error_None in E. replace (Z.to_nat _ - _) with 0 by lia. reflexivity.
Qed.

(** * Construction of views *)
Lemma strides1 n : shape_to_strides [n] = [8%Z].
Proof. reflexivity. Qed.
Lemma packed1 n : packed [n] (shape_to_strides [n]).
Proof. cbn. split; [left; reflexivity|exact I]. Qed.
Lemma packed2 r c : packed [r; c] (shape_to_strides [r; c]).
Proof. cbn [packed shape_to_strides hd]. split; [left; change (prod [c]) with (c * 1)%Z; unfold itemsize; lia|]. split; [left; reflexivity|exact I]. Qed.
Lemma basic_ok sh ci : accepts sh ci -> packed sh (shape_to_strides sh) -> Forall (fun d => (0 <= d <= SMAX)%Z) sh -> (0 <= shape_to_size sh)%Z ->
  length (sel_shape sh ci) <= 1 ->
  exists p b, basic_new (shape_to_size sh) sh (shape_to_strides sh) true ci = Ok (p, b) /\ p_shape p = sel_shape sh ci.
Proof.
  intros Ha Hp Hd Hs Hl. destruct (parse_ok _ _ _ Ha Hp Hd) as (p & Hp1 & Hp2 & _ & _ & Hp3).
  assert (E : length sh = length ci) by (clear - Ha; induction Ha; cbn; congruence).
  assert (Hc : exists b, is_contiguous (p_shape p) (p_strides p) = Some b).
  { rewrite <- Hp2 in Hl. destruct (p_shape p) as [|d [|? ?]]; destruct (p_strides p) as [|t [|? ?]]; cbn in Hp3, Hl; try lia; [now exists true|].
    unfold is_contiguous. cbn [combine rev app contig]. rewrite orb_true_r. cbn [negb]. destruct (d =? 0)%Z; [eauto|]. destruct (_ && _); eauto. }
  destruct Hc as [b Hb]. exists p, b. split; [|exact Hp2]. unfold basic_new, BasicModel.parse. rewrite E, Nat.ltb_irrefl.
  destruct (Z.ltb_spec (shape_to_size sh) 0); [lia|]. cbn [negb]. rewrite Hp1. cbn [rbind]. now rewrite Hb.
Qed.
Lemma length_chosen n a b : length (chosen (Z.of_nat n) (ISlice (Slice a b 1))) = hi n b - lo n a.
Proof. rewrite chosen_slice, map_length. destruct (Nat.leb_spec (hi n b) (lo n a)); [cbn; lia|]. apply seq_length. Qed.
Lemma cut_length {A} a b (l : list A) : length (cut a b l) = hi (length l) b - lo (length l) a.
Proof. unfold cut. rewrite firstn_length, skipn_length. unfold hi, lo. lia. Qed.

Definition small {A} (l : list A) : Prop := (Z.of_nat (length l) < 2147483648)%Z.
Lemma small_max {A} (l : list A) : small l -> (Z.of_nat (length l) <= SMAX)%Z.
Proof. unfold small, SMAX. lia. Qed.

(** * Construction of advanced indexing *)
Lemma arr_ok sh am k d : (0 <= d)%Z -> arr_check sh am k d true 0%Qc (zq (-1)) = Ok tt.
Proof.
  intros Hd. unfold arr_check. cbn [negb]. destruct (qltb_spec 0%Qc 0%Qc) as [H|_]; [exfalso; exact (Qclt_not_le _ _ H (Qcle_refl _))|].
  destruct (Z.ltb_spec d 0); [lia|]. rewrite andb_false_r. destruct (qleb_spec (zq d) (zq (-1))) as [H1|_]; [|reflexivity].
  apply (proj1 (zq_le _ _)) in H1. lia.
Qed.
Lemma size_equal_same sh : size_equal sh 0 sh 0 = true.
Proof. unfold size_equal. destruct (dynamic sh); cbn; [reflexivity|]. apply Z.eqb_refl. Qed.
Definition anarr (sh : list Z) : aindex := AArr sh 0 true 0%Qc (zq (-1)).
Lemma adv_new1 n sh : (0 <= n)%Z -> length sh <= 1 ->
  exists r, adv_new true [n] (Some 0%Z) [anarr sh] = Ok r /\ ad_spec r = [true] /\ ad_oshape r = sh.
Proof.
  intros Hn Hs. unfold adv_new. cbn [length Nat.eqb negb AdvModel.parse anarr]. rewrite arr_ok by exact Hn. cbn [rbind].
  cbn [map is_arr hd orb]. rewrite andb_false_r. destruct (Nat.ltb_spec 1 (length sh)); [lia|]. cbn [forallb negb andb slice_dims].
  eexists. split; [reflexivity|]. cbn [ad_spec ad_oshape]. split; [reflexivity|apply app_nil_r].
Qed.
Lemma adv_new2 n k sh : (0 <= n)%Z -> (0 <= k)%Z -> length sh <= 1 ->
  exists r, adv_new true [n; k] (Some 0%Z) [anarr sh; anarr sh] = Ok r /\ ad_spec r = [true; true] /\ ad_oshape r = sh.
Proof.
  intros Hn Hk Hs. unfold adv_new. cbn [length Nat.eqb negb AdvModel.parse anarr]. rewrite !arr_ok by assumption. cbn [rbind].
  rewrite size_equal_same, Nat.eqb_refl. cbn [negb].
  cbn [map is_arr hd orb rbind]. rewrite andb_false_r. destruct (Nat.ltb_spec 1 (length sh)); [lia|]. cbn [forallb negb andb slice_dims].
  eexists. split; [reflexivity|]. cbn [ad_spec ad_oshape]. split; [reflexivity|apply app_nil_r].
Qed.
Lemma adv_new_rows n k sh : (0 <= n)%Z -> length sh <= 1 ->
  exists r, adv_new true [n; k] (Some 0%Z) [anarr sh; ASlice true] = Ok r /\ ad_spec r = [true; false] /\ ad_oshape r = sh ++ [k].
Proof.
  intros Hn Hs. unfold adv_new. cbn [length Nat.eqb negb AdvModel.parse anarr]. rewrite !arr_ok by assumption. cbn [rbind].
  cbn [map is_arr hd orb rbind]. rewrite ?andb_false_r. destruct (Nat.ltb_spec 1 (length sh)); [lia|]. cbn [forallb negb andb slice_dims].
  eexists. split; [reflexivity|]. cbn [ad_spec ad_oshape]. split; reflexivity.
Qed.

Section Rules.
Variable B : nat -> Prop.
Variable dv : nat -> list num.

(** [x[a:b]] of a vector. *)
Lemma runs_slice x c (l : list num) a b m (Q : nat -> pym -> Prop) :
  open_ B m -> fact B m dv x c [Z.of_nat (length l)] true l -> not_adv c -> small l ->
  (forall y m' ct', steps B m m' -> let w := cut (value_or a 0%Z) (value_or b SMAX) l in
     fact B m' dv y (KBasic [ISlice (Slice (value_or a 0%Z) (value_or b SMAX) 1)]) [Z.of_nat (length w)] ct' w -> Q y m') ->
  runs (getitem x [PSlice a b None]) m Q.
Proof.
  intros Ho F Hc Hl HQ. pose proof F as [[ps Hx] _]. eapply runs_getitem; [exact Hx|exact Hc|].
  eapply runs_array_getitem_basic; [exact F|reflexivity|]. cbn [length Nat.sub repeat app].
  set (ci := [ISlice (Slice (value_or a 0%Z) (value_or b SMAX) 1)]).
  destruct (@basic_ok [Z.of_nat (length l)] ci) as (p & b' & Hb & Hp).
  - constructor; [|constructor]. cbn. lia.
  - apply packed1.
  - constructor; [|constructor]. pose proof (small_max Hl). lia.
  - rewrite size1; unfold small in Hl; lia.
  - cbn. lia.
  - eapply runs_basic with (ci := ci); [exact Ho|exact F|reflexivity|exact Hb| |].
    + apply view_slice; [now left|exact Hl].
    + intros y m' S F'. eapply HQ; [exact S|]. rewrite Hp in F'. subst ci. cbn [sel_shape] in F'. rewrite length_chosen in F'. rewrite cut_length. exact F'.
Qed.
(** [x[a:b]] of a list or set of state-dependent size. *)
Lemma runs_slice_dyn x c (l : list num) a b m (Q : nat -> pym -> Prop) :
  open_ B m -> fact B m dv x c [-1]%Z true l -> not_adv c -> small l ->
  (forall y m' ct', steps B m m' ->
     fact B m' dv y (KBasic [ISlice (Slice (value_or a 0%Z) (value_or b SMAX) 1)]) [-1]%Z ct' (cut (value_or a 0%Z) (value_or b SMAX) l) -> Q y m') ->
  runs (getitem x [PSlice a b None]) m Q.
Proof.
  intros Ho F Hc Hl HQ. pose proof F as [[ps Hx] _]. eapply runs_getitem; [exact Hx|exact Hc|].
  eapply runs_array_getitem_basic; [exact F|reflexivity|]. cbn [length Nat.sub repeat app].
  eapply runs_basic; [exact Ho|exact F|reflexivity|reflexivity| |].
  - apply view_slice; [now right|exact Hl].
  - intros y m' S F'. eapply HQ; [exact S|]. exact F'.
Qed.
(** [x[i]] of a vector. *)
Lemma runs_int x c (l : list num) z m (Q : nat -> pym -> Prop) :
  open_ B m -> fact B m dv x c [Z.of_nat (length l)] true l -> not_adv c -> small l -> (- Z.of_nat (length l) <= z < Z.of_nat (length l))%Z ->
  (forall y m' ct', steps B m m' -> fact B m' dv y (KBasic [IInt z]) [] ct' [nth (Z.to_nat (py_norm (Z.of_nat (length l)) z)) l 0%Qc] -> Q y m') ->
  runs (getitem x [PInt z]) m Q.
Proof.
  intros Ho F Hc Hl Hz HQ. pose proof F as [[ps Hx] _]. eapply runs_getitem; [exact Hx|exact Hc|].
  eapply runs_array_getitem_basic; [exact F|reflexivity|]. cbn [length Nat.sub repeat app].
  destruct (@basic_ok [Z.of_nat (length l)] [IInt z]) as (p & b' & Hb & Hp).
  - constructor; [|constructor]. exact Hz.
  - apply packed1.
  - constructor; [|constructor]. pose proof (small_max Hl). lia.
  - rewrite size1; unfold small in Hl; lia.
  - cbn. lia.
  - eapply runs_basic with (ci := [IInt z]); [exact Ho|exact F|reflexivity|exact Hb|apply view_int; assumption|].
    intros y m' S F'. eapply HQ; [exact S|]. rewrite Hp in F'. exact F'.
Qed.
(** [x[i, a:b]] of a matrix. *)
Lemma runs_row x c (D : list (list num)) r k i a b m (Q : nat -> pym -> Prop) :
  open_ B m -> fact B m dv x c [Z.of_nat r; Z.of_nat k] true (concat D) -> not_adv c -> matrix r k D -> (Z.of_nat (r * k) < 2147483648)%Z -> i < r -> 1 <= k ->
  (forall y m' ct', steps B m m' -> let w := cut (value_or a 0%Z) (value_or b SMAX) (nth i D []) in
     fact B m' dv y (KBasic [IInt (Z.of_nat i); ISlice (Slice (value_or a 0%Z) (value_or b SMAX) 1)]) [Z.of_nat (length w)] ct' w -> Q y m') ->
  runs (basic x [PInt (Z.of_nat i); PSlice a b None]) m Q.
Proof.
  intros Ho F Hc HD Hl Hi Hk1 HQ. set (ci := [IInt (Z.of_nat i); ISlice (Slice (value_or a 0%Z) (value_or b SMAX) 1)]).
  assert (Hk : (Z.of_nat k < 2147483648)%Z) by nia.
  assert (Hrow : length (nth i D []) = k) by (destruct HD as [HD1 HD2]; apply nth_row; [exact HD2|lia]).
  destruct (@basic_ok [Z.of_nat r; Z.of_nat k] ci) as (p & b' & Hb & Hp).
  - constructor; [cbn; lia|constructor; [cbn; lia|constructor]].
  - apply packed2.
  - constructor; [unfold SMAX; nia|constructor; [unfold SMAX; nia|constructor]].
  - rewrite size2; lia.
  - cbn. lia.
  - eapply runs_basic with (ci := ci); [exact Ho|exact F|reflexivity|exact Hb| |].
    + subst ci. rewrite (@view_row D r k i _ HD Hi Hl) by exact I. rewrite <- Hrow. apply view_slice; [now left|]. rewrite Hrow. exact Hk.
    + intros y m' S F'. eapply HQ; [exact S|]. rewrite Hp in F'. subst ci. cbn [sel_shape] in F'. rewrite <- Hrow in F'. rewrite length_chosen in F'.
      rewrite cut_length. exact F'.
Qed.

(** [w[items]], for the numbers of the items in an array with at most one axis. *)
Lemma runs_gather x y c ct c2 sh ct2 (w : list num) (l : list nat) m (Q : nat -> pym -> Prop) :
  open_ B m -> fact B m dv x c [Z.of_nat (length w)] ct w -> fact B m dv y c2 sh ct2 (numbers l) -> length sh <= 1 ->
  Forall (fun i => i < length w) l ->
  (forall z m', steps B m m' -> fact B m' dv z (KAdv [true]) sh true (map (fun i => nth i w 0%Qc) l) -> Q z m') ->
  runs (advanced x [PArr y]) m Q.
Proof.
  intros Ho F F2 Hs Hl HQ. pose proof (fact_shape F2) as H2.
  destruct (@adv_new1 (Z.of_nat (length w)) sh) as (r & Hr & Hsp & Hos); [lia|exact Hs|].
  eapply runs_advanced with (ws := [numbers l]); [exact Ho|exact F| | |exact Hr| |].
  - cbn. constructor; [|constructor]. now destruct F2 as [_ [_ Y]].
  - cbn [rmap aix rbind]. rewrite H2. reflexivity.
  - rewrite Hsp. cbn [meaning]. unfold dynamic. cbn [hd]. destruct (Z.ltb_spec (Z.of_nat (length w)) 0); [lia|]. now apply adv_vector.
  - intros z m' S F'. apply HQ; [exact S|]. now rewrite Hsp, Hos in F'.
Qed.
Lemma runs_gather_item x y c ct c2 sh ct2 (w : list num) (l : list nat) m (Q : nat -> pym -> Prop) :
  open_ B m -> fact B m dv x c [Z.of_nat (length w)] ct w -> not_adv c -> fact B m dv y c2 sh ct2 (numbers l) -> length sh <= 1 ->
  Forall (fun i => i < length w) l ->
  (forall z m', steps B m m' -> fact B m' dv z (KAdv [true]) sh true (map (fun i => nth i w 0%Qc) l) -> Q z m') ->
  runs (getitem x [PArr y]) m Q.
Proof.
  intros Ho F Hc F2 Hs Hl HQ. pose proof F as [[ps Hx] _]. eapply runs_getitem; [exact Hx|exact Hc|].
  eapply runs_array_getitem_adv; [exact F|reflexivity|reflexivity|]. cbn [length Nat.sub repeat app]. eapply runs_gather; eauto.
Qed.
(** [D[rows, columns]]. *)
Lemma runs_gather2 x y1 y2 c ct c1 c2 sh ct1 ct2 (D : list (list num)) r k (l1 l2 : list nat) m (Q : nat -> pym -> Prop) :
  open_ B m -> fact B m dv x c [Z.of_nat r; Z.of_nat k] ct (concat D) -> not_adv c -> matrix r k D ->
  fact B m dv y1 c1 sh ct1 (numbers l1) -> fact B m dv y2 c2 sh ct2 (numbers l2) -> length sh <= 1 ->
  Forall (fun i => i < r) l1 -> Forall (fun i => i < k) l2 -> length l1 = length l2 ->
  (forall z m', steps B m m' -> fact B m' dv z (KAdv [true; true]) sh true (map (fun p => entry D (fst p) (snd p)) (combine l1 l2)) -> Q z m') ->
  runs (getitem x [PArr y1; PArr y2]) m Q.
Proof.
  intros Ho F Hc HD F1 F2 Hs Hl1 Hl2 Hl HQ. pose proof (fact_shape F1) as H1. pose proof (fact_shape F2) as H2.
  pose proof F as [[ps Hx] _]. eapply runs_getitem; [exact Hx|exact Hc|].
  eapply runs_array_getitem_adv; [exact F|reflexivity|reflexivity|]. cbn [length Nat.sub repeat app].
  destruct (@adv_new2 (Z.of_nat r) (Z.of_nat k) sh) as (rr & Hr & Hsp & Hos); [lia|lia|exact Hs|].
  eapply runs_advanced with (ws := [numbers l1; numbers l2]); [exact Ho|exact F| | |exact Hr| |].
  - cbn. constructor; [now destruct F1 as [_ [_ Y]]|]. constructor; [now destruct F2 as [_ [_ Y]]|constructor].
  - cbn [rmap aix rbind]. rewrite H1, H2. reflexivity.
  - rewrite Hsp. cbn [meaning]. unfold dynamic. cbn [hd]. destruct (Z.ltb_spec (Z.of_nat r) 0); [lia|]. now apply adv_matrix.
  - intros z m' S F'. apply HQ; [exact S|]. now rewrite Hsp, Hos in F'.
Qed.
(** [D[rows, :]]. *)
Lemma runs_rows x y c ct c2 sh ct2 (D : list (list num)) r k (l : list nat) m (Q : nat -> pym -> Prop) :
  open_ B m -> fact B m dv x c [Z.of_nat r; Z.of_nat k] ct (concat D) -> not_adv c -> matrix r k D ->
  fact B m dv y c2 sh ct2 (numbers l) -> length sh <= 1 -> Forall (fun i => i < r) l ->
  (forall z m', steps B m m' -> fact B m' dv z (KAdv [true; false]) (sh ++ [Z.of_nat k]) true (concat (map (fun i => nth i D []) l)) ->
     nth_error (p_syms m') z = Some (Sym (KAdv [true; false]) [x; y] (sh ++ [Z.of_nat k]) true) -> Q z m') ->
  runs (getitem x [PArr y; full]) m Q.
Proof.
  intros Ho F Hc HD F2 Hs Hl HQ. pose proof (fact_shape F2) as H2.
  pose proof F as [[ps Hx] _]. eapply runs_getitem; [exact Hx|exact Hc|].
  eapply runs_array_getitem_adv; [exact F|reflexivity|reflexivity|]. cbn [length Nat.sub repeat app].
  destruct (@adv_new_rows (Z.of_nat r) (Z.of_nat k) sh) as (rr & Hr & Hsp & Hos); [lia|exact Hs|].
  match goal with |- runs ?g m Q => assert (G : runs g m (fun z m' => steps B m m' /\
    fact B m' dv z (KAdv [true; false]) (sh ++ [Z.of_nat k]) true (concat (map (fun i => nth i D []) l)))) end.
  { eapply runs_advanced with (ws := [numbers l]); [exact Ho|exact F| | |exact Hr| |].
    - cbn. constructor; [|constructor]. now destruct F2 as [_ [_ Y]].
    - cbn [rmap aix rbind]. rewrite H2. reflexivity.
    - rewrite Hsp. cbn [meaning]. unfold dynamic. cbn [hd]. destruct (Z.ltb_spec (Z.of_nat r) 0); [lia|]. now apply adv_rows.
    - intros z m' S F'. split; [exact S|]. now rewrite Hsp, Hos in F'. }
  destruct G as (z & m' & E & S & F'). exists z, m'. split; [exact E|]. apply HQ; auto.
  destruct F2 as [[p2 Hy] _]. unfold advanced, bind, look, arrays in E. cbn [flat_map app looks] in E. unfold bind, look in E.
  rewrite Hx, Hy in E. unfold full in E at 1. cbn [app looks ret rmap aix rbind lift] in E. unfold lift, ret in E. cbn [rbind] in E. rewrite H2 in E. cbn [s_shape] in E. cbn [full app is_full aix] in E.
  fold (anarr sh) in E. cbn [rbind] in E. rewrite Hr in E. cbn [rbind] in E. unfold emit in E. injection E as <- <-.
  cbn [p_syms]. rewrite nth_error_app2, Nat.sub_diag by lia. cbn. now rewrite Hsp, Hos.
Qed.

(** [x.sum()]. *)
Lemma runs_sum x c sh ct l m (Q : nat -> pym -> Prop) :
  open_ B m -> fact B m dv x c sh ct l ->
  (forall z m', steps B m m' -> fact B m' dv z (KRed RAdd) [] true [qsum_of l] -> Q z m') -> runs (red RAdd x) m Q.
Proof.
  intros Ho F HQ. eapply runs_red; [exact Ho|exact F|reflexivity| |exact HQ]. cbn. now rewrite Qcplus_0_l.
Qed.
(** Operations on numbers. *)
Lemma runs_scalars o x y c1 ct1 a c2 ct2 b m (Q : nat -> pym -> Prop) :
  open_ B m -> fact B m dv x c1 [] ct1 [a] -> fact B m dv y c2 [] ct2 [b] -> o <> BDiv -> o <> BMod ->
  (forall z m', steps B m m' -> fact B m' dv z (KBin o) [] true [bop_total o a b] -> Q z m') -> runs (binop o x y) m Q.
Proof.
  intros Ho F1 F2 H1 H2 HQ. eapply runs_binop; [exact Ho|exact F1|exact F2|reflexivity| |exact HQ]. destruct o; try contradiction; reflexivity.
Qed.
(** Operations on arrays of the same shape. *)
Lemma bcast_same l : bcast l l = Some l.
Proof. induction l as [|a l IH]; cbn [bcast]; [reflexivity|]. now rewrite IH, Z.eqb_refl. Qed.
Lemma bin_new_same sh : (0 <= shape_to_size sh)%Z -> BinaryModel.bin_new sh sh = Ok sh.
Proof.
  intros H. unfold BinaryModel.bin_new, broadcast_shape. rewrite bcast_same, rev_involutive. cbn [rbind].
  destruct (_ || _); [reflexivity|]. destruct (Z.ltb_spec (shape_to_size sh) 0); [lia|]. cbn [orb].
  unfold zlist_eqb. destruct (list_eq_dec Z.eq_dec sh sh); congruence.
Qed.
Lemma runs_same o x y sh c1 ct1 a c2 ct2 b m (Q : nat -> pym -> Prop) :
  open_ B m -> fact B m dv x c1 sh ct1 a -> fact B m dv y c2 sh ct2 b -> o <> BDiv -> o <> BMod ->
  (0 <= shape_to_size sh)%Z -> dynamic sh = false -> prod sh = Z.of_nat (length a) -> length a = length b ->
  (forall z m', steps B m m' -> fact B m' dv z (KBin o) sh true (map (fun p => bop_total o (fst p) (snd p)) (combine a b)) -> Q z m') ->
  runs (binop o x y) m Q.
Proof.
  intros Ho F1 F2 H1 H2 Hs Hd Hp Hl HQ. eapply runs_binop; [exact Ho|exact F1|exact F2|now apply bin_new_same| |exact HQ].
  assert (E : bin_fun (bop_total o) sh sh [a; b] = Some (map (fun p => bop_total o (fst p) (snd p)) (combine a b))).
  { unfold bin_fun, clash. rewrite Hd. cbn [xorb andb]. unfold bin_value. destruct (single sh) eqn:Es.
    - unfold single in Es. rewrite Hd, Hp in Es. cbn [negb andb] in Es. apply Z.eqb_eq in Es. destruct a as [|u [|? ?]]; cbn [length] in Es; try lia.
      destruct b as [|w [|? ?]]; cbn in Hl; try lia. reflexivity.
    - now rewrite Hl, Nat.eqb_refl. }
  destruct o; try contradiction; exact E.
Qed.
End Rules.

(** Carry the facts over to the next model. *)
Ltac advance S :=
  match type of S with steps ?B ?m ?m' =>
    repeat match goal with H : fact _ m _ _ _ _ _ _ |- _ => apply (fact_steps S) in H end;
    repeat match goal with H : open_ B m |- _ => clear H end;
    let O := fresh "O" in pose proof (steps_open S) as O
  end.
(** A model without an objective, finished. *)
Lemma fact_objective B dv m x c sh ct v k : fact B m dv x c sh ct [v] -> objective (Pym (p_syms m) (Some x) k) dv v.
Proof.
  intros F. exists x. split; [reflexivity|]. apply (fact_keeps (keeps_syms B m (Some x) k)) in F. exact (fact_yields F).
Qed.

Lemma path_combine D l : qsum_of (map (fun p => entry D (fst p) (snd p)) (combine (removelast l) (tl l))) = path D l.
Proof.
  destruct l as [|a l]; [reflexivity|]. revert a; induction l as [|b l IH]; intros a; [reflexivity|].
  change (removelast (a :: b :: l)) with (a :: removelast (b :: l)). cbn [tl combine map qsum_of fst snd path]. f_equal. exact (IH b).
Qed.
Lemma Forall_removelast {A} (P : A -> Prop) l : Forall P l -> Forall P (removelast l).
Proof. intros H. rewrite removelast_firstn_len. apply Forall_forall. intros x Hx. rewrite Forall_forall in H. apply H. revert Hx. clear.
  generalize (pred (length l)) as k. intros k Hx. rewrite <- (firstn_skipn k l). apply in_or_app. now left. Qed.
Lemma Forall_tl {A} (P : A -> Prop) l : Forall P l -> Forall P (tl l).
Proof. intros H. destruct H; cbn; auto. Qed.
Lemma removelast_length {A} (l : list A) : length (removelast l) = length (tl l).
Proof. rewrite removelast_firstn_len, firstn_length. destruct l; cbn; lia. Qed.
Lemma qsum_app l k : qsum_of (l ++ k) = (qsum_of l + qsum_of k)%Qc.
Proof. induction l as [|a l IH]; cbn [app qsum_of]; [now rewrite Qcplus_0_l|]. now rewrite IH, Qcplus_assoc. Qed.
Lemma combine_app {A C} (l l' : list A) (k k' : list C) : length l = length k -> combine (l ++ l') (k ++ k') = combine l k ++ combine l' k'.
Proof. revert k; induction l as [|a l IH]; intros [|b k] H; try discriminate; [reflexivity|]. cbn. f_equal. apply IH. now injection H. Qed.
Lemma numbers_cut a b l : numbers (cut a b l) = cut a b (numbers l).
Proof. apply cut_map. Qed.

(** Growing also by constraints. *)
Definition grows (B : nat -> Prop) (k : list nat) (m m' : pym) : Prop :=
  keeps B m m' /\ p_obj m' = p_obj m /\ p_cons m' = p_cons m ++ k /\ open_ B m'.
Lemma steps_grows B m m' : steps B m m' -> grows B [] m m'.
Proof. intros (K & O & C & P). split; [exact K|]. rewrite app_nil_r. auto. Qed.
Lemma grows_trans B k1 k2 m1 m2 m3 : grows B k1 m1 m2 -> grows B k2 m2 m3 -> grows B (k1 ++ k2) m1 m3.
Proof.
  intros (K1 & O1 & C1 & _) (K2 & O2 & C2 & P). split; [exact (keeps_trans K1 K2)|]. split; [congruence|]. split; [|exact P].
  rewrite C2, C1. symmetry. apply app_assoc.
Qed.
Lemma grows_step B k m1 m2 m3 : grows B k m1 m2 -> steps B m2 m3 -> grows B k m1 m3.
Proof. intros H S. rewrite <- (app_nil_r k). exact (grows_trans H (steps_grows S)). Qed.
Lemma grows_refl B m : open_ B m -> grows B [] m m.
Proof. intros H. apply steps_grows. now apply steps_refl. Qed.
Lemma fact_grows B dv k m m' x c sh ct v : grows B k m m' -> fact B m dv x c sh ct v -> fact B m' dv x c sh ct v.
Proof. intros (K & _). now apply fact_keeps. Qed.
Lemma grows_open B k m m' : grows B k m m' -> open_ B m'.
Proof. now intros (_ & _ & _ & H). Qed.
Lemma runs_constrain B dv x c sh ct v m (Q : unit -> pym -> Prop) :
  open_ B m -> fact B m dv x c sh ct v -> shape_to_size sh = 1%Z -> (forall m', grows B [x] m m' -> Q tt m') -> runs (add_constraint x) m Q.
Proof.
  intros Ho F Hs HQ. eapply runs_constraint; [exact F|exact Hs|]. apply HQ. split; [apply keeps_syms|]. auto.
Qed.
Ltac grown G :=
  match type of G with grows ?B _ ?m ?m' =>
    repeat match goal with H : fact _ m _ _ _ _ _ _ |- _ => apply (fact_grows G) in H end;
    repeat match goal with H : open_ B m |- _ => clear H end;
    let O := fresh "O" in pose proof (grows_open G) as O
  end.
(** A number compared with a number. *)
Definition holds (B : nat -> Prop) (m : pym) (dv : nat -> list num) (x : nat) (b : bool) : Prop := exists c sh ct, fact B m dv x c sh ct [b2q b].
Lemma holds_feasible B m dv o ks bs (P : Prop) : Forall2 (holds B m dv) ks bs -> (Forall (fun b => b = true) bs <-> P) ->
  feasible_iff (Pym (p_syms m) o ks) dv P.
Proof.
  intros H HP. exists bs. split; [|exact HP]. cbn [p_cons]. eapply Forall2_imp; [|exact H]. intros x b (c & sh & ct & F).
  apply (fact_keeps (keeps_syms B m o ks)) in F. exact (fact_yields F).
Qed.
Lemma holds_keeps B m m' dv x b : keeps B m m' -> holds B m dv x b -> holds B m' dv x b.
Proof. intros K (c & sh & ct & F). exists c, sh, ct. now apply (fact_keeps K). Qed.

(** * Loops over parts *)
Lemma seq_mid s n done x todo : seq s n = done ++ x :: todo -> x = s + length done /\ length done < n.
Proof.
  intros H. assert (L : n = length done + S (length todo)) by (rewrite <- (seq_length n s), H, app_length; reflexivity).
  split; [|lia]. assert (E : nth (length done) (seq s n) 0 = x) by (rewrite H, app_nth2, Nat.sub_diag by lia; reflexivity).
  rewrite seq_nth in E by lia. lia.
Qed.
Lemma seq_done s n done x todo : seq s n = done ++ x :: todo -> done = seq s (length done).
Proof.
  intros H. assert (L : n = length done + S (length todo)) by (rewrite <- (seq_length n s), H, app_length; reflexivity).
  rewrite L, seq_app in H. apply (f_equal (firstn (length done))) in H. rewrite !firstn_app in H. rewrite seq_length, Nat.sub_diag in H. cbn [firstn] in H.
  rewrite !app_nil_r in H. rewrite firstn_all in H. rewrite firstn_all2 in H by (rewrite seq_length; lia). now symmetry.
Qed.
(** A node whose value is not used. *)
Lemma runs_emit_plain B c ps sh ct m (Q : nat -> pym -> Prop) :
  open_ B m -> (forall x m', x = length (p_syms m) -> length (p_syms m') = S (length (p_syms m)) -> steps B m m' -> Q x m') -> runs (emit c ps sh ct) m Q.
Proof.
  intros Ho HQ. unfold runs, emit. eexists _, _. split; [reflexivity|]. apply HQ; [reflexivity|cbn; rewrite app_length; cbn; lia|].
  split; [apply keeps_app|]. repeat split; try reflexivity. intros x Hx. apply Ho. cbn in Hx. rewrite app_length in Hx. lia.
Qed.
Lemma runs_parts B dv one sh main k m (Q : list nat -> pym -> Prop) :
  open_ B m -> (forall i, decided_cls (one i) = true) ->
  (forall m', length (p_syms m') = length (p_syms m) + k -> steps B m m' ->
     (forall i, i < k -> fact B m' dv (length (p_syms m) + i) (one i) sh true (dv (length (p_syms m) + i))) -> Q (seq (length (p_syms m)) k) m') ->
  runs (parts one sh main k) m Q.
Proof.
  intros Ho Hd HQ. unfold parts.
  apply runs_pfor with (I := fun done xs m' => xs = seq (length (p_syms m)) (length done) /\ length (p_syms m') = length (p_syms m) + length done /\
    steps B m m' /\ forall i, i < length done -> fact B m' dv (length (p_syms m) + i) (one i) sh true (dv (length (p_syms m) + i))).
  - split; [reflexivity|]. split; [cbn; lia|]. split; [now apply steps_refl|]. intros i Hi. cbn in Hi. lia.
  - intros done x todo xs m1 E (-> & L & S1 & F). apply seq_mid in E as [-> Hn]. cbn [plus].
    apply runs_bind. apply runs_emit_dec with (B := B) (dv := dv); [exact (steps_open S1)|apply Hd|]. intros y m2 -> L2 S2 F2.
    apply runs_ret. rewrite app_length. cbn [length]. replace (length done + 1) with (S (length done)) by lia. rewrite seq_S, L. split; [reflexivity|].
    split; [lia|]. split; [exact (steps_trans S1 S2)|]. intros i Hi. destruct (Nat.eq_dec i (length done)) as [->|Hne].
    + rewrite L in F2. exact F2.
    + apply (fact_steps S2). apply F. lia.
  - intros xs m' (-> & L & S & F). rewrite seq_length in *. now apply HQ.
Qed.
(** Starting to keep track of a node that will change. *)
Lemma yp_ban B B' m dv x v : (forall z, z < length (p_syms m) -> ~ B' z) -> yp B m dv x v -> yp B' m dv x v.
Proof.
  intros HB H. induction H as [x s Hs Hb Hc|x s ins v Hs Hb Hc Hp IH Hm] using yp_ind'.
  - apply yp_dec with s; auto. apply HB. apply nth_error_Some. congruence.
  - apply yp_op with s ins; auto. apply HB. apply nth_error_Some. congruence.
Qed.
Lemma fact_ban B B' m dv x c sh ct v : (forall z, z < length (p_syms m) -> ~ B' z) -> fact B m dv x c sh ct v -> fact B' m dv x c sh ct v.
Proof.
  intros HB [[ps H] [Hb Hy]]. split; [now exists ps|]. split; [|eapply yp_ban; [exact HB|exact Hy]]. apply HB. apply nth_error_Some. congruence.
Qed.
Lemma holds_ban B B' m dv x b : (forall z, z < length (p_syms m) -> ~ B' z) -> holds B m dv x b -> holds B' m dv x b.
Proof. intros HB (c & sh & ct & F). exists c, sh, ct. eapply fact_ban; [exact HB|exact F]. Qed.

(** * Computations that only append nodes *)
Definition appends {A} (g : py A) : Prop := forall m a m', g m = Ok (a, m') -> exists l, p_syms m' = p_syms m ++ l.
Lemma appends_bind {A C} (g : py A) (f : A -> py C) : appends g -> (forall a, appends (f a)) -> appends (bind g f).
Proof.
  intros Hg Hf m a m' E. unfold bind in E. destruct (g m) as [[b m1]| |] eqn:Eg; try discriminate.
  destruct (Hg _ _ _ Eg) as [l1 H1]. destruct (Hf _ _ _ _ E) as [l2 H2]. exists (l1 ++ l2). now rewrite H2, H1, app_assoc.
Qed.
Lemma appends_ret {A} (a : A) : appends (ret a).
Proof. intros m b m' [= _ <-]. exists []. now rewrite app_nil_r. Qed.
Lemma appends_raise {A} : appends (@raise A).
Proof. intros m b m' [=]. Qed.
Lemma appends_lift {A} (r : res A) : appends (lift r).
Proof. intros m b m' E. unfold lift in E. destruct r; try discriminate. injection E as _ <-. exists []. now rewrite app_nil_r. Qed.
Lemma appends_look x : appends (look x).
Proof. intros m b m' E. unfold look in E. destruct (nth_error _ x); try discriminate. injection E as _ <-. exists []. now rewrite app_nil_r. Qed.
Lemma appends_looks xs : appends (looks xs).
Proof.
  induction xs as [|x xs IH]; cbn [looks]; [apply appends_ret|]. apply appends_bind; [apply appends_look|]. intros s. apply appends_bind; [exact IH|].
  intros ss. apply appends_ret.
Qed.
Lemma appends_emit c ps sh ct : appends (emit c ps sh ct).
Proof. intros m b m' E. injection E as _ <-. now eexists. Qed.
Ltac appending := repeat first [apply appends_ret | apply appends_raise | apply appends_lift | apply appends_look | apply appends_looks | apply appends_emit
  | apply appends_bind; [|intros ?]].
Lemma appends_red o x : appends (red o x).
Proof. unfold red. appending. Qed.
Lemma appends_binop o x y : appends (binop o x y).
Proof. unfold binop. appending. Qed.
Lemma appends_nary o xs : appends (nary o xs).
Proof. unfold nary. appending. Qed.
Lemma appends_basic x ix : appends (basic x ix).
Proof. unfold basic. appending. Qed.
Lemma appends_advanced x ix : appends (advanced x ix).
Proof.
  unfold advanced. apply appends_bind; [apply appends_look|]. intros s. apply appends_bind; [apply appends_looks|]. intros ss m b m' E.
  refine ((_ : appends (bind (lift (rmap (aix (shape_at m)) ix)) (fun ai => _))) m b m' E). appending.
Qed.
Lemma appends_permutation x o : appends (permutation x o).
Proof. unfold permutation. appending. Qed.
Lemma appends_array_getitem x ix : appends (array_getitem x ix).
Proof.
  unfold array_getitem. apply appends_bind; [appending|]. intros s. cbv zeta. destruct (forallb _ _); [apply appends_basic|].
  destruct (forallb _ _); [apply appends_advanced|]. apply appends_bind; [apply appends_basic|]. intros b. apply appends_advanced.
Qed.
Lemma appends_getitem x ix : appends (getitem x ix).
Proof.
  unfold getitem. apply appends_bind; [appending|]. intros s.
  destruct (s_cls s); try apply appends_array_getitem. destruct (s_pred s); try apply appends_array_getitem.
  apply appends_bind; [appending|]. intros sa.
  repeat match goal with |- appends (match ?x with _ => _ end) => destruct x; try apply appends_array_getitem end; apply appends_permutation.
Qed.
Lemma runs_appends {A} (g : py A) m (Q : A -> pym -> Prop) : appends g -> runs g m Q -> runs g m (fun a m' => (exists l, p_syms m' = p_syms m ++ l) /\ Q a m').
Proof. intros Hg (a & m' & E & HQ). exists a, m'. split; [exact E|]. split; [exact (Hg _ _ _ E)|exact HQ]. Qed.
Lemma appended_nth m m' x s : (exists l, p_syms m' = p_syms m ++ l) -> nth_error (p_syms m) x = Some s -> nth_error (p_syms m') x = Some s.
Proof. intros [l ->] H. rewrite nth_error_app1; [exact H|]. apply nth_error_Some. congruence. Qed.
