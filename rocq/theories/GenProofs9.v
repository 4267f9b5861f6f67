(** Vehicle routing with time windows: the generator's model computes these times. *)
From Coq Require Import Permutation.
From Verif Require Import Base Num SliceModel ShapeModel ShapeSpec SliceSpec StateDataModel NodeSpec BinaryModel BasicModel BasicSpec ViewModel ElemModel NaryModel
  ReduceModel BoundsModel PermModel AdvModel NarySpec ReduceSpec BinarySpec ElemSpec PermSpec ViewSpec AdvSpec ProposeSpec PyModel GenModel PySpec GenSpec PyProofs PyValues PyRules
  GenProofs GenProofs2 GenProofs3 GenProofs4 GenProofs5 GenProofs6 GenProofs8.
Set Implicit Arguments.

Lemma runs_then {A C} (g : py A) (f : A -> py C) m (P : A -> pym -> Prop) Q : runs g m P -> (forall a m', P a m' -> runs (f a) m' Q) -> runs (bind g f) m Q.
Proof. intros H HQ. apply runs_bind. eapply runs_mono; [|exact H]. exact HQ. Qed.

Lemma q2b_b2q b : q2b (b2q b) = b.
Proof. now destruct b. Qed.
Section Scalars.
Variable dv : nat -> list num.
Notation stp := (steps nobody).
(** A scalar, and a constant vector. *)
Definition kn (m : pym) (x : nat) (v : num) : Prop := exists c ct, fact nobody m dv x c [] ct [v].
Definition vec (m : pym) (x : nat) (w : list num) : Prop := fact nobody m dv x (KConst w) [Z.of_nat (length w)] true w.
Definition idx (m : pym) (x i : nat) : Prop := kn m x (zq (Z.of_nat i)).
Definition rt (m : pym) (x : nat) (r : list nat) : Prop := exists h n k i, fact nobody m dv x (KListOf h n k i) [-1]%Z true (numbers r).
Lemma kn_keeps m m' x v : keeps nobody m m' -> kn m x v -> kn m' x v.
Proof. intros K (c & ct & F). exists c, ct. now apply (fact_keeps K). Qed.
Lemma idx_keeps m m' x i : keeps nobody m m' -> idx m x i -> idx m' x i.
Proof. apply kn_keeps. Qed.
Lemma rt_keeps m m' x v : keeps nobody m m' -> rt m x v -> rt m' x v.
Proof. intros K (h & n & k & i & F). exists h, n, k, i. now apply (fact_keeps K). Qed.
Lemma vec_keeps m m' x v : keeps nobody m m' -> vec m x v -> vec m' x v.
Proof. intros K. apply (fact_keeps K). Qed.
Lemma go_bin o x y a b m : kn m x a -> kn m y b -> o <> BDiv -> o <> BMod -> runs (binop o x y) m (fun z m' => stp m m' /\ kn m' z (bop_total o a b)).
Proof.
  intros (c1 & t1 & F1) (c2 & t2 & F2) H1 H2. eapply runs_scalars; [apply nobody_open|exact F1|exact F2|exact H1|exact H2|].
  intros z m' S F. split; [exact S|]. now do 2 eexists; exact F.
Qed.
Lemma go_where c x y b i j m : kn m c (b2q b) -> idx m x i -> idx m y j -> runs (where_ c x y) m (fun z m' => stp m m' /\ idx m' z (if b then i else j)).
Proof.
  intros (c1 & t1 & F1) (c2 & t2 & F2) (c3 & t3 & F3). eapply runs_where; [apply nobody_open|exact F1|exact F2|exact F3|reflexivity| |].
  - cbn. reflexivity.
  - intros z m' S F. split; [exact S|]. exists KWhere, true. rewrite q2b_b2q in F. destruct b; exact F.
Qed.
Lemma go_at x w y i m : vec m x w -> idx m y i -> i < length w -> runs (getitem x [PArr y]) m (fun z m' => stp m m' /\ kn m' z (nth i w 0%Qc)).
Proof.
  intros F1 (c & t & F2) Hi. eapply runs_gather_item with (l := [i]); [apply nobody_open|exact F1|exact I|exact F2|cbn; lia|now repeat constructor|].
  intros z m' S F. split; [exact S|]. do 2 eexists. exact F.
Qed.
Lemma go_at2 x D n y1 y2 i j m : fact nobody m dv x (KConst (concat D)) [Z.of_nat n; Z.of_nat n] true (concat D) -> matrix n n D -> idx m y1 i -> idx m y2 j -> i < n -> j < n ->
  runs (getitem x [PArr y1; PArr y2]) m (fun z m' => stp m m' /\ kn m' z (entry D i j)).
Proof.
  intros F1 HD (c & t & F2) (c' & t' & F3) Hi Hj.
  eapply runs_gather2 with (l1 := [i]) (l2 := [j]); [apply nobody_open|exact F1|exact I|exact HD|exact F2|exact F3|cbn; lia|now repeat constructor|now repeat constructor|reflexivity|].
  intros z m' S F. split; [exact S|]. do 2 eexists. exact F.
Qed.
Lemma go_int x w i m : vec m x w -> small w -> i < length w -> runs (getitem x [PInt (Z.of_nat i)]) m (fun z m' => stp m m' /\ kn m' z (nth i w 0%Qc)).
Proof.
  intros F Hs Hi. eapply runs_int; [apply nobody_open|exact F|exact I|exact Hs|lia|]. intros y m' ct S F'. split; [exact S|]. do 2 eexists.
  unfold py_norm in F'. destruct (Z.ltb_spec (Z.of_nat i) 0); [lia|]. rewrite Nat2Z.id in F'. exact F'.
Qed.
Lemma go_last x w m : vec m x w -> small w -> w <> [] -> runs (getitem x [PInt (-1)]) m (fun z m' => stp m m' /\ kn m' z (last w 0%Qc)).
Proof.
  intros F Hs Hi. assert (1 <= length w) by (destruct w; [congruence|cbn; lia]). eapply runs_int; [apply nobody_open|exact F|exact I|exact Hs|lia|]. intros y m' ct S F'. split; [exact S|]. do 2 eexists.
  unfold py_norm in F'. cbn [Z.ltb Z.compare] in F'. rewrite last_nth. replace (length w - 1) with (Z.to_nat (-1 + Z.of_nat (length w))) by lia. exact F'.
Qed.
(** [r[a:b].sum()] where the slice has at most one element. *)
Lemma go_pick x r a b i m : rt m x r -> small r ->
  qsum_of (numbers (cut (value_or a 0%Z) (value_or b SMAX) r)) = zq (Z.of_nat i) ->
  runs (do y <- getitem x [PSlice a b None] ; red RAdd y) m (fun z m' => stp m m' /\ idx m' z i).
Proof.
  intros (h & n & k & j & F) Hs Hi. apply runs_bind. eapply runs_slice_dyn; [apply nobody_open|exact F|exact I|unfold small in *; now rewrite numbers_length|].
  intros y m1 ct S1 F1. eapply runs_sum; [apply nobody_open|exact F1|]. intros z m2 S2 F2. split; [exact (steps_trans S1 S2)|]. do 2 eexists. rewrite <- numbers_cut, Hi in F2. exact F2.
Qed.
End Scalars.
Lemma pick_first r : qsum_of (numbers (cut 0 1 r)) = zq (Z.of_nat (nth 0 r 0)).
Proof. rewrite cut_first. destruct r; cbn; [reflexivity|apply Qcplus_0_r]. Qed.
Lemma pick_one r i : qsum_of (numbers (cut (Z.of_nat i) (Z.of_nat i + 1) r)) = zq (Z.of_nat (nth i r 0)).
Proof.
  rewrite cut_one. destruct (nth_error r i) as [x|] eqn:E.
  - rewrite (nth_error_nth _ _ _ E). cbn. apply Qcplus_0_r.
  - apply nth_error_None in E. now rewrite nth_overflow.
Qed.
Lemma pick_prev r i : qsum_of (numbers (cut (Z.of_nat i) (Z.of_nat (S i)) r)) = zq (Z.of_nat (nth i r 0)).
Proof. replace (Z.of_nat (S i)) with (Z.of_nat i + 1)%Z by lia. apply pick_one. Qed.
Lemma pick_last r : small r -> qsum_of (numbers (cut (-1) SMAX r)) = zq (Z.of_nat (last r 0)).
Proof. intros H. rewrite (@cut_last _ r 0) by (now apply small_max). destruct r; [reflexivity|]. cbn [numbers map qsum_of]. apply Qcplus_0_r. Qed.
Lemma bind_assoc {A C E} (g : py A) (f : A -> py C) (h : C -> py E) m : bind g (fun a => bind (f a) h) m = bind (bind g f) h m.
Proof. unfold bind. now destruct (g m) as [[a m']| |]. Qed.
Lemma runs_assoc {A C E} (g : py A) (f : A -> py C) (h : C -> py E) m Q : runs (bind (bind g f) h) m Q -> runs (bind g (fun a => bind (f a) h)) m Q.
Proof. intros (a & m' & H & HQ). exists a, m'. split; [|exact HQ]. now rewrite bind_assoc. Qed.
Ltac fwd S :=
  match type of S with steps nobody ?m ?m' =>
    let K := fresh "K" in pose proof (steps_keeps S) as K;
    repeat match goal with
    | H : fact nobody m _ _ _ _ _ _ |- _ => apply (fact_keeps K) in H
    | H : kn _ m _ _ |- _ => apply (kn_keeps K) in H
    | H : idx _ m _ _ |- _ => apply (idx_keeps K) in H
    | H : rt _ m _ _ |- _ => apply (rt_keeps K) in H
    | H : vec _ m _ _ |- _ => apply (vec_keeps K) in H
    end; clear K
  end.
Lemma counted i l : bop_total BLe (bop_total BPlus (zq (Z.of_nat i)) 1%Qc) (zq (Z.of_nat l)) = b2q (i <? l).
Proof.
  cbn [bop_total bop_func]. f_equal. change 1%Qc with (zq 1). rewrite zq_plus. destruct (qleb_spec (zq (Z.of_nat i + 1)) (zq (Z.of_nat l))) as [L|L].
  - apply (proj1 (zq_le _ _)) in L. symmetry. apply Nat.ltb_lt. lia.
  - symmetry. apply Nat.ltb_ge. destruct (Nat.le_gt_cases l i); [assumption|]. exfalso. apply L. apply zq_le. lia.
Qed.
Lemma numbers_seq k i : i < k -> nth i (numbers (seq 0 k)) 0%Qc = zq (Z.of_nat i).
Proof. intros H. unfold numbers. rewrite (nth_indep _ 0%Qc (zq (Z.of_nat 0))) by (now rewrite map_length, seq_length). rewrite (map_nth (fun i => zq (Z.of_nat i))), seq_nth by exact H. reflexivity. Qed.

Lemma last_helper k : last (numbers (seq 0 (S k))) 0%Qc = zq (Z.of_nat k).
Proof. rewrite last_nth, numbers_length, seq_length. replace (S k - 1) with k by lia. apply numbers_seq. lia. Qed.
Lemma plus_cancel (t u v : num) : (t + u = v + u)%Qc -> t = v.
Proof. intros H. assert (E : (t + u - u = v + u - u)%Qc) by now rewrite H. replace t with (t + u - u)%Qc by ring. rewrite E. ring. Qed.
Lemma constrain_all dv ws bs : forall m, Forall2 (fun w b => kn dv m w (b2q b)) ws bs -> runs (pfor ws (fun _ c => add_constraint c) tt) m (fun _ m' => grows nobody ws m m').
Proof.
  intros m H. apply runs_pfor with (I := fun done _ m' => grows nobody done m m').
  - apply grows_refl, nobody_open.
  - intros done x todo _ m' E G. assert (exists v, kn dv m x v) as (v & c & ct & F).
    { clear G. revert E. revert done. induction H as [|w b l l' Hw Hl IH]; intros done E; [now destruct done|]. destruct done as [|d done]; cbn in E; injection E as -> E.
      - now exists (b2q b).
      - now apply (IH done). }
    apply (fact_grows G) in F. eapply runs_constrain; [apply nobody_open|exact F|reflexivity|]. intros m2 G2. exact (grows_trans G G2).
  - auto.
Qed.
Lemma kn_holds dv m x b : kn dv m x (b2q b) -> holds nobody m dv x b.
Proof. intros (c & ct & F). now exists c, [], ct. Qed.
Lemma counted_one l : bop_total BLe 1%Qc (zq (Z.of_nat l)) = b2q (1 <=? l).
Proof. exact (counted 0 l). Qed.
Lemma path_snoc D l b a : path D (l ++ [b; a]) = (path D (l ++ [b]) + entry D b a)%Qc.
Proof.
  induction l as [|c l IH]; [cbn; ring|]. destruct l as [|e l].
  - cbn. ring.
  - change (path D ((c :: e :: l) ++ [b; a])) with (entry D c e + path D ((e :: l) ++ [b; a]))%Qc.
    change (path D ((c :: e :: l) ++ [b])) with (entry D c e + path D ((e :: l) ++ [b]))%Qc. rewrite IH. ring.
Qed.
Section Slot.
Variables (dv : nat -> list num) (n : nat) (T : list (list num)) (open close service : list num).
Hypothesis HT : matrix (S n) (S n) T.
Hypothesis HT0 : Forall nonnegative T.
Hypothesis Ho : length open = S n.
Hypothesis Hc : length close = S n.
Hypothesis Hs : length service = S n.
Hypothesis Hn : (Z.of_nat (S n) < 2147483648)%Z.
Variables t_from t_to t_cust t_open t_close t_service one helper : nat.
Notation stp := (steps nobody).
Notation kn := (kn dv). Notation vec := (vec dv). Notation idx := (idx dv). Notation rt := (rt dv).
Lemma len_from : length (x_from T) = S n.
Proof. eapply from_len; eassumption. Qed.
Lemma len_to : length (x_to T) = S n.
Proof. eapply to_len; eassumption. Qed.
Lemma len_open : length (x_open open) = S n.
Proof. eapply ext_len; eassumption. Qed.
Lemma len_close : length (x_close close) = S n.
Proof. eapply ext_len; eassumption. Qed.
Lemma len_service : length (x_service service) = S n.
Proof. eapply ext_len; eassumption. Qed.
Lemma mat_cust : matrix (S n) (S n) (x_cust n T).
Proof. eapply cust_matrix; eassumption. Qed.
Definition ctx (m : pym) : Prop := vec m t_from (x_from T) /\ vec m t_to (x_to T) /\
  fact nobody m dv t_cust (KConst (concat (x_cust n T))) [Z.of_nat (S n); Z.of_nat (S n)] true (concat (x_cust n T)) /\
  vec m t_open (x_open open) /\ vec m t_close (x_close close) /\ vec m t_service (x_service service) /\ kn m one 1%Qc /\ vec m helper (numbers (seq 0 (S n))).
Lemma ctx_keeps m m' : keeps nobody m m' -> ctx m -> ctx m'.
Proof.
  intros K (H1 & H2 & H3 & H4 & H5 & H6 & H7 & H8).
  exact (conj (vec_keeps K H1) (conj (vec_keeps K H2) (conj (fact_keeps K H3) (conj (vec_keeps K H4) (conj (vec_keeps K H5) (conj (vec_keeps K H6)
    (conj (kn_keeps K H7) (vec_keeps K H8)))))))).
Qed.
Variables (x z : nat) (r : list nat).
Hypothesis Hr : Forall (fun i => i < n) r.
Hypothesis Hrl : length r <= n.
Notation at_ := (at_ n). Notation via := (via n). Notation lv := (lv n T open service).
Lemma at_lt i : at_ r i < S n.
Proof. unfold GenProofs8.at_. destruct (Nat.ltb_spec i (length r)); [|lia]. pose proof (@r_in n r Hr i). lia. Qed.
Lemma via_lt i : via r i < S n.
Proof. unfold GenProofs8.via. destruct (Nat.ltb_spec i (length r)); [|lia]. pose proof (@r_in n r Hr (i - 1)). lia. Qed.
Ltac step L := eapply runs_then; [eapply L; eauto; try discriminate|]; let y := fresh "y" in let m' := fresh "m" in let SS := fresh "SS" in let F := fresh "F" in intros y m' [SS F]; fwd SS.
Ltac trans := repeat first [now apply steps_refl, nobody_open | assumption | eapply steps_trans; [eassumption|]].
Ltac pick_ L := apply runs_assoc; eapply runs_then; [eapply go_pick; [eassumption|unfold small; lia|apply L]|];
  let y := fresh "y" in let m' := fresh "m" in let SS := fresh "SS" in let F := fresh "F" in intros y m' [SS F]; fwd SS.
Lemma slot_runs i ls ws m : ctx m -> rt m x r -> idx m z (length r) -> i < S n ->
  (forall j, i = S j -> exists l ls', ls = l :: ls' /\ kn m l (lv r j)) ->
  runs (tw_slot t_from t_cust t_open t_close t_service one helper x z (ls, ws) i) m (fun lw m' => stp m m' /\ exists l w, lw = (l :: ls, ws ++ [w]) /\
    kn m' l (lv r i) /\ kn m' w (b2q (qleb (lv r i) (nth (at_ r i) (x_close close) 0%Qc)))).
Proof.
  intros (H1 & H2 & H3 & H4 & H5 & H6 & H7 & H8) HR HZ Hi Hl. unfold tw_slot.
  assert (Sm : small (numbers (seq 0 (S n)))) by (unfold small; rewrite numbers_length, seq_length; exact Hn).
  assert (Hh : i < length (numbers (seq 0 (S n)))) by (rewrite numbers_length, seq_length; exact Hi).
  assert (Hne : numbers (seq 0 (S n)) <> []) by (cbn; discriminate).
  step go_int. rewrite numbers_seq in F by exact Hi.
  step go_bin.
  unfold ge. step go_bin. rewrite counted in F1.
  assert (SS012 : stp m m2) by exact (steps_trans SS (steps_trans SS0 SS1)).
  clear SS SS0 SS1 F F0 Hh.
  assert (L1 : forall i, at_ r i < length (x_from T)) by (intros; rewrite len_from; apply at_lt).
  assert (L2 : forall i, at_ r i < length (x_open open)) by (intros; rewrite len_open; apply at_lt).
  assert (L3 : forall i, at_ r i < length (x_close close)) by (intros; rewrite len_close; apply at_lt).
  assert (L4 : forall i, at_ r i < length (x_service service)) by (intros; rewrite len_service; apply at_lt).
  assert (HX := mat_cust).
  pose proof at_lt as AL. pose proof via_lt as VL.
  eapply runs_then with (P := fun p m' => stp m2 m' /\ idx m' (fst p) (at_ r i) /\ ctx m' /\
     forall t, (t + nth (at_ r i) (x_service service) 0)%Qc = lv r i -> kn m' (snd p) t).
  { destruct i as [|j]; cbn [Nat.eqb].
    - pick_ pick_first. step go_last. rewrite last_helper in F0. step go_where. fold (at_ r 0) in F2.
      step go_at. step go_at. 
      cbn [several]. step go_bin. apply runs_ret. cbn [fst snd].
      split; [trans|]. split; [exact F2|]. split; [exact (conj H1 (conj H2 (conj H3 (conj H4 (conj H5 (conj H6 (conj H7 H8)))))))|].
      intros t Ht. cbn [GenProofs8.lv] in Ht. apply plus_cancel in Ht. subst t. exact F5.
    - destruct (Hl j eq_refl) as (l & ls' & -> & FL). clear Hl. fwd SS012. cbn [hd_error the].
      replace (Z.of_nat (S j) - 1)%Z with (Z.of_nat j) by lia.
      pick_ (pick_prev r j). step go_last. rewrite last_helper in F0. step go_where.
      pick_ (pick_one r (S j)). step go_last. rewrite last_helper in F4. step go_where.
      replace (if S j <? length r then nth j r 0 else n) with (via r (S j)) in F2 by (unfold GenProofs8.via; now replace (S j - 1) with j by lia).
      fold (at_ r (S j)) in F5.
      step go_at2. apply runs_bind, runs_ret. step go_bin. step go_at. cbn [several]. step go_bin. apply runs_ret. cbn [fst snd].
      split; [trans|]. split; [exact F5|]. split; [exact (conj H1 (conj H2 (conj H3 (conj H4 (conj H5 (conj H6 (conj H7 H8)))))))|].
      intros t Ht. cbn [GenProofs8.lv] in Ht. apply plus_cancel in Ht. subst t. exact F9. }
  clear H1 H2 H3 H4 H5 H6 H7 H8. intros [ix sv] m3 (S3 & X & (H1 & H2 & H3 & H4 & H5 & H6 & H7 & H8) & V). cbn [fst snd] in X, V.
  assert (V' : kn m3 sv (lv r i - nth (at_ r i) (x_service service) 0)%Qc) by (apply V; ring). clear V.
  step go_at. step go_bin. cbn [bop_total bop_func] in F0.
  replace (lv r i - nth (at_ r i) (x_service service) 0 + nth (at_ r i) (x_service service) 0)%Qc with (lv r i) in F0 by ring.
  step go_at. step go_bin. apply runs_ret. split; [trans|]. do 2 eexists. split; [reflexivity|]. split; [exact F0|exact F3].
Qed.

(** One vehicle. *)
Definition window_at (i : nat) : bool := qleb (lv r i) (nth (at_ r i) (x_close close) 0%Qc).
Definition back_time (k : nat) : num := (lv r (k - 1) + nth (back_at n r) (x_to T) 0)%Qc.
Lemma slots_run k m : ctx m -> rt m x r -> idx m z (length r) -> k <= S n ->
  runs (pfor (seq 0 k) (tw_slot t_from t_cust t_open t_close t_service one helper x z) ([], [])) m (fun lw m' => stp m m' /\
    Forall2 (fun w b => kn m' w (b2q b)) (snd lw) (map window_at (seq 0 k)) /\ (forall j, k = S j -> exists l ls, fst lw = l :: ls /\ kn m' l (lv r j))).
Proof.
  intros HC HR HZ Hkn.
  apply runs_pfor with (I := fun done lw m' => stp m m' /\ Forall2 (fun w b => kn m' w (b2q b)) (snd lw) (map window_at (seq 0 (length done))) /\
      (forall j, length done = S j -> exists l ls, fst lw = l :: ls /\ kn m' l (lv r j))).
    - split; [now apply steps_refl, nobody_open|]. split; [constructor|]. intros j E. discriminate.
    - intros done i todo [ls ws] m' E (St & HW & HL). apply seq_mid in E as [-> Hi]. cbn [fst snd] in *.
      pose proof (steps_keeps St) as K.
      eapply runs_mono; [|apply slot_runs with (i := 0 + length done)]; [|exact (ctx_keeps K HC)|exact (rt_keeps K HR)|exact (idx_keeps K HZ)|lia|exact HL].
      cbv beta. intros lw m'' (St' & l & w & -> & Fl & Fw). cbn [fst snd]. pose proof (steps_keeps St') as K'.
      split; [exact (steps_trans St St')|]. rewrite app_length. cbn [length]. replace (length done + 1) with (S (length done)) by lia. split.
      + rewrite seq_S, map_app. apply Forall2_app; [|constructor; [exact Fw|constructor]]. eapply Forall2_imp; [|exact HW]. cbv beta. intros ? ?. now apply kn_keeps.
      + intros j [= <-]. exists l, ls. split; [reflexivity|exact Fl].
    - intros lw m' (St & HW & HL). rewrite seq_length in *. split; [exact St|]. split; [exact HW|]. exact HL.
Qed.
Lemma vehicle_runs k back m : ctx m -> rt m x r -> idx m z (length r) -> 1 <= k -> k <= S n ->
  runs (tw_vehicle t_from t_to t_cust t_open t_close t_service one helper (Z.of_nat k) back (x, z)) m (fun out m' => exists ks y, grows nobody ks m m' /\
    Forall2 (holds nobody m' dv) ks (map window_at (seq 0 k)) /\ out = back ++ [y] /\ kn m' y (back_time k)).
Proof.
  intros HC HR HZ Hk Hkn. unfold tw_vehicle. rewrite Nat2Z.id.
  assert (Sm : small (numbers (seq 0 (S n)))) by (unfold small; rewrite numbers_length, seq_length; exact Hn).
  assert (Hne : numbers (seq 0 (S n)) <> []) by (cbn; discriminate).
  assert (L5 : back_at n r < length (x_to T)).
  { rewrite len_to. unfold back_at. destruct (Nat.leb_spec 1 (length r)); [|lia]. rewrite last_nth. pose proof (@r_in n r Hr (length r - 1)). lia. }
  eapply runs_then; [apply slots_run with (k := k); assumption|]. cbv beta.
  intros [lst ws] m1 (S1 & HW & HL). destruct (HL (k - 1)) as (l & ls & E & Fl); [lia|]. cbn [fst snd] in *. subst lst. pose proof (steps_keeps S1) as K.
  apply (ctx_keeps K) in HC. clear K. fwd S1. destruct HC as (H1 & H2 & H3 & H4 & H5 & H6 & H7 & H8).
  assert (Sr : small r) by (unfold small; lia).
  unfold ge. step go_bin. rewrite counted_one in F. pick_ (pick_last Sr). step go_last. rewrite last_helper in F1. step go_where. fold (back_at n r) in F2.
  cbn [hd_error the]. apply runs_bind, runs_ret. step go_at. step go_bin. cbn [bop_total bop_func] in F4. fold (back_time k) in F4.
  assert (Sx : stp m1 m6) by trans. pose proof (steps_keeps Sx) as Kx.
  assert (HW' : Forall2 (fun w b => kn m6 w (b2q b)) ws (map window_at (seq 0 k))).
  { eapply Forall2_imp; [|exact HW]. cbv beta. intros ? ?. now apply kn_keeps. }
  eapply runs_then; [eapply constrain_all; exact HW'|]. cbv beta. intros _ m7 G. apply runs_ret. pose proof (proj1 G) as KG.
  exists ws, y4. split; [exact (grows_trans (steps_grows (steps_trans S1 Sx)) G)|]. split; [|split; [reflexivity|exact (kn_keeps KG F4)]].
  eapply Forall2_imp; [|exact HW']. cbv beta. intros w b Hw. apply kn_holds. exact (kn_keeps KG Hw).
Qed.

(** The three costs of a route. *)
Definition tw_costs : list num := [ qsum_of (map (fun i => nth i (x_from T) 0%Qc) (firstn 1 r));
    qsum_of (map (fun i => nth i (x_to T) 0%Qc) (match r with [] => [] | _ => [last r 0] end));
    qsum_of (map (fun p => entry (x_cust n T) (fst p) (snd p)) (combine (tl r) (removelast r))) ].
Lemma cost_runs costs m : ctx m -> rt m x r ->
  runs (tw_cost t_from t_to t_cust costs x) m (fun out m' => stp m m' /\ exists ys, out = costs ++ ys /\ Forall2 (kn m') ys tw_costs).
Proof.
  intros (H1 & H2 & H3 & _) (h1 & h2 & h3 & i & F). unfold vec in H1, H2. unfold tw_cost.
  assert (Hsm : small (numbers r)) by (unfold small; rewrite numbers_length; lia).
  assert (Hmx := small_max Hsm). rewrite numbers_length in Hmx.
  assert (Hr' : Forall (fun i => i < S n) r) by (eapply Forall_impl; [|exact Hr]; cbv beta; intros; lia).
  assert (O := nobody_open m).
  apply runs_bind. eapply runs_slice_dyn; [exact O|exact F|exact I|exact Hsm|]. intros a1 n1 c1 T1 A1. advance T1.
  cbn [value_or] in A1. rewrite <- numbers_cut, cut_first in A1.
  apply runs_bind. eapply runs_gather_item; [exact O|exact H1|exact I|exact A1|cbn; lia|rewrite len_from; now apply Forall_firstn|]. intros a2 n2 T2 A2. advance T2.
  apply runs_bind. eapply runs_sum; [exact O|exact A2|]. intros s1 n3 T3 A3. advance T3.
  apply runs_bind. eapply runs_slice_dyn; [exact O|exact F|exact I|exact Hsm|]. intros a4 n4 c4 T4 A4. advance T4.
  cbn [value_or] in A4. rewrite <- numbers_cut, (@cut_last _ r 0) in A4 by exact Hmx.
  apply runs_bind. eapply runs_gather_item; [exact O|exact H2|exact I|exact A4|cbn; lia|rewrite len_to; now apply Forall_last|]. intros a5 n5 T5 A5. advance T5.
  apply runs_bind. eapply runs_sum; [exact O|exact A5|]. intros s2 n6 T6 A6. advance T6.
  apply runs_bind. eapply runs_slice_dyn; [exact O|exact F|exact I|exact Hsm|]. intros a7 n7 c7 T7 A7. advance T7.
  cbn [value_or] in A7. rewrite <- numbers_cut, cut_tail in A7 by exact Hmx.
  apply runs_bind. eapply runs_slice_dyn; [exact O|exact F|exact I|exact Hsm|]. intros a8 n8 c8 T8 A8. advance T8.
  cbn [value_or] in A8. rewrite <- numbers_cut, cut_init in A8.
  apply runs_bind. eapply runs_gather2; [exact O|exact H3|exact I|exact mat_cust|exact A7|exact A8| | | | |].
  { cbn; lia. } { now apply Forall_tl. } { now apply Forall_removelast. } { symmetry. apply removelast_length. }
  intros a9 n9 T9 A9. advance T9.
  apply runs_bind. eapply runs_sum; [exact O|exact A9|]. intros s3 n10 T10 A10. advance T10.
  apply runs_ret. split; [trans|]. eexists. split; [reflexivity|].
  constructor; [do 2 eexists; exact A3|]. constructor; [do 2 eexists; exact A6|]. constructor; [do 2 eexists; exact A10|constructor].
Qed.
Lemma costs_reversed : qsum_of tw_costs = reversed_trip T r.
Proof.
  unfold tw_costs, reversed_trip. destruct r as [|a l] eqn:E; [cbn; ring|]. cbn [firstn map qsum_of hd tl].
  assert (Ha : a < n) by (inversion Hr; assumption). assert (Hla : last (a :: l) 0 < n) by (rewrite last_nth; apply r_in; [exact Hr|cbn; lia]).
  assert (E1 : nth a (x_from T) 0%Qc = entry T 0 (S a)) by (eapply from_in; eassumption).
  assert (E2 : nth (last (a :: l) 0) (x_to T) 0%Qc = entry T (S (last (a :: l) 0)) 0) by (eapply to_in; eassumption).
  rewrite E1, E2. cbv zeta. replace (last (S a :: map S l) 0) with (S (last (a :: l) 0)) by (symmetry; exact (last_S l a)).
  assert (E3 : qsum_of (map (fun p => entry (x_cust n T) (fst p) (snd p)) (combine l (removelast (a :: l)))) = path T (rev (S a :: map S l))).
  { clear E1 E2 Hla Hrl E. revert a Ha Hr. induction l as [|b l IH]; intros a Ha Hr'; [reflexivity|]. inversion Hr' as [|? ? _ Hr1]; subst.
    assert (Hb : b < n) by (inversion Hr1; assumption).
    change (removelast (a :: b :: l)) with (a :: removelast (b :: l)). cbn [combine map qsum_of fst snd]. rewrite (IH b Hb Hr1).
    change (rev (S a :: S b :: map S l)) with ((rev (map S l) ++ [S b]) ++ [S a]). rewrite <- app_assoc. cbn [app]. rewrite path_snoc.
    assert (E1 : entry (x_cust n T) b a = entry T (S b) (S a)) by (eapply cust_in; eassumption). rewrite E1. cbn [rev]. ring. }
  rewrite E3. ring.
Qed.
End Slot.

(** Loops that collect nodes and add constraints. *)
Lemma runs_collect dv {A V} (l : list A) (g : list nat -> A -> py (list nat)) (R : pym -> nat -> V -> Prop) (f : A -> list V) (h : A -> list bool) m :
  (forall m1 m2 x v, keeps nobody m1 m2 -> R m1 x v -> R m2 x v) ->
  (forall a cs m1, In a l -> keeps nobody m m1 -> runs (g cs a) m1 (fun out m2 => exists ks ys, grows nobody ks m1 m2 /\ out = cs ++ ys /\
     Forall2 (R m2) ys (f a) /\ Forall2 (holds nobody m2 dv) ks (h a))) ->
  runs (pfor l g []) m (fun out m2 => exists ks, grows nobody ks m m2 /\ Forall2 (R m2) out (concat (map f l)) /\ Forall2 (holds nobody m2 dv) ks (concat (map h l))).
Proof.
  intros HR Hg. apply runs_pfor with (I := fun done out m2 => exists ks, grows nobody ks m m2 /\ Forall2 (R m2) out (concat (map f done)) /\ Forall2 (holds nobody m2 dv) ks (concat (map h done))).
  - exists []. split; [apply grows_refl, nobody_open|]. split; constructor.
  - intros done x todo cs m1 E (ks & G & H1 & H2). eapply runs_mono; [|apply Hg]; [|rewrite E; apply in_or_app; right; now left|exact (proj1 G)].
    cbv beta. intros out m2 (ks' & ys & G' & -> & H3 & H4). exists (ks ++ ks'). split; [exact (grows_trans G G')|].
    rewrite !map_app, !concat_app. cbn [map concat]. rewrite !app_nil_r. pose proof (proj1 G') as K. split; apply Forall2_app; auto.
    + eapply Forall2_imp; [|exact H1]. intros ? ?. now apply HR.
    + eapply Forall2_imp; [|exact H2]. intros ? ?. now apply holds_keeps.
  - auto.
Qed.
Lemma concat_single {A C} (f : A -> C) l : concat (map (fun x => [f x]) l) = map f l.
Proof. induction l; cbn; congruence. Qed.
Lemma concat_nil {A C} (l : list A) : concat (map (fun _ => @nil C) l) = [].
Proof. now induction l. Qed.
Lemma map_part {A C} (h : A -> C) l d b : map (fun x => h (nth (x - b) l d)) (seq b (length l)) = map h l.
Proof.
  revert b. induction l as [|a l IH]; intros b; [reflexivity|]. cbn [length seq map]. rewrite Nat.sub_diag. cbn [nth]. f_equal. rewrite <- (IH (S b)).
  apply map_ext_in. intros x Hx. apply in_seq in Hx. replace (x - b) with (S (x - S b)) by lia. reflexivity.
Qed.
Lemma in_zip {A C V} (P : C -> V -> Prop) (f : A -> V) xs zs x z : Forall2 P zs (map f xs) -> In (x, z) (combine xs zs) -> P z (f x) /\ In x xs.
Proof.
  revert zs. induction xs as [|a xs IH]; intros zs H; [destruct zs; cbn; tauto|]. inversion H as [|c ? zs' ? H1 H2]; subst. cbn [combine]. intros [[= -> ->]|Hi].
  - split; [exact H1|now left].
  - destruct (IH _ H2 Hi). split; [assumption|now right].
Qed.
