(** The positions visited by the traversals, and the position of an element of the array in the output. *)
From Verif Require Import Base SliceModel ShapeModel ShapeSpec ShapeProofs StateDataModel NodeSpec BinaryModel Num QuadModel PermModel PermSpec PermProofs DedupModel AdvModel AdvSpec AdvProofs.
Local Open Scope Z_scope.

Fixpoint souts (b1 : bool) (first : nat) (ostr : list Z) (spec : list bool) (k od : nat) : list Z :=
  match spec with
  | [] => []
  | true :: spec' => souts b1 first ostr spec' (S k) (if negb b1 && (k =? first)%nat then S od else od)
  | false :: spec' => nth od ostr 0 :: souts b1 first ostr spec' (S k) (S od)
  end.

Definition order (back : bool) (sh : list Z) : list (list Z) := if back then rev (all_idx sh) else all_idx sh.

Lemma rev_flat_map {X Y} (f : X -> list Y) l : rev (flat_map f l) = flat_map (fun x => rev (f x)) (rev l).
Proof.
  induction l as [|x l IH]; [reflexivity|]. cbn [flat_map rev]. rewrite rev_app_distr, flat_map_app, IH. cbn [flat_map]. now rewrite app_nil_r.
Qed.
Lemma order_cons back d sh :
  order back (d :: sh) = flat_map (fun i => map (cons (Z.of_nat i)) (order back sh)) (if back then rev (seq 0 (Z.to_nat d)) else seq 0 (Z.to_nat d)).
Proof.
  destruct back; [|reflexivity]. unfold order. cbn [all_idx]. rewrite rev_flat_map. apply flat_map_ext. intros i. now rewrite map_rev.
Qed.
Lemma map_flat_map {X Y W} (g : Y -> W) (f : X -> list Y) l : map g (flat_map f l) = flat_map (fun x => map g (f x)) l.
Proof. induction l as [|x l IH]; [reflexivity|]. cbn [flat_map]. now rewrite map_app, IH. Qed.

Section Geo.
Variable A : adv.
Let b1 := ad_b1 A.
Let first := ad_first A.
Let ostr := ad_ostr A.

Lemma visits_eq back spec : forall sh istr k od dst src, length sh = length spec -> length istr = length spec ->
  visits A back spec sh istr k od dst src =
  map (fun sub => (dst + offset (souts b1 first ostr spec k od) sub, src + offset (pick false spec istr) sub))
      (order back (pick false spec sh)).
Proof.
  induction spec as [|[] spec IH]; intros [|d sh] [|s istr] k od dst src L1 L2; try discriminate L1; try discriminate L2.
  - cbn. destruct back; cbn; f_equal; f_equal; lia.
  - cbn [visits pick Bool.eqb souts]. rewrite IH by (cbn in *; lia). reflexivity.
  - cbn [visits pick Bool.eqb souts]. rewrite order_cons, map_flat_map. apply flat_map_ext. intros i.
    rewrite IH by (cbn in *; lia). rewrite map_map. apply map_ext. intros sub. cbn [offset]. f_equal; unfold ostr; lia.
Qed.

Definition nths (l : list Z) (k n : nat) : list Z := map (fun i => nth i l 0) (seq k n).
Definition nslices (spec : list bool) : nat := length (filter negb spec).

Lemma souts_flat spec : forall k od, b1 = true \/ (first < k)%nat -> souts b1 first ostr spec k od = nths ostr od (nslices spec).
Proof.
  induction spec as [|[] spec IH]; intros k od H; [reflexivity| |]; unfold nslices; cbn [souts filter negb length].
  - replace (negb b1 && (k =? first)%nat) with false.
    + apply IH. destruct H; [auto|right; lia].
    + destruct H as [->|H]; [reflexivity|]. destruct (Nat.eqb_spec k first); [lia|]. now rewrite andb_false_r.
  - unfold nths. cbn [seq map]. f_equal. apply IH. destruct H; [auto|right; lia].
Qed.
Lemma souts_b2 spec : forall k od, b1 = false -> first = (k + lead spec)%nat -> (lead spec < length spec)%nat ->
  souts b1 first ostr spec k od = nths ostr od (lead spec) ++ nths ostr (S (od + lead spec)) (nslices spec - lead spec).
Proof.
  induction spec as [|[] spec IH]; intros k od H F L; cbn [lead length] in *; [lia| |].
  - cbn [souts]. rewrite H. replace (k =? first)%nat with true by (symmetry; apply Nat.eqb_eq; lia). cbn [negb andb].
    rewrite <- H. rewrite souts_flat by (right; lia). unfold nslices. cbn [filter negb length]. rewrite Nat.add_0_r, Nat.sub_0_r. reflexivity.
  - cbn [souts]. rewrite IH by (auto; lia). unfold nslices. cbn [filter negb length]. unfold nths. cbn [seq map app Nat.sub].
    f_equal. f_equal. f_equal. f_equal. lia.
Qed.

Lemma nslices_pick {X} spec (l : list X) : length l = length spec -> length (pick false spec l) = nslices spec.
Proof.
  unfold nslices. revert l; induction spec as [|[] spec IH]; intros [|x l] L; try discriminate L; cbn [pick Bool.eqb filter negb length]; auto.
Qed.
Lemma lead_nslices spec : (lead spec <= nslices spec)%nat.
Proof. clear. unfold nslices. induction spec as [|[] spec IH]; cbn [lead filter negb length]; lia. Qed.

Lemma nths_skip l k n : length l = (k + n)%nat -> nths l k n = skipn k l.
Proof. clear.
  unfold nths. revert l k; induction n as [|n IH]; intros l k L.
  - rewrite skipn_all2 by lia. reflexivity.
  - cbn [seq map]. rewrite IH by lia. clear IH. revert l L; induction k as [|k IHk]; intros [|x l] L; cbn in L; try lia.
    + reflexivity.
    + cbn [nth]. apply IHk. lia.
Qed.
Lemma nths_first l n : (n <= length l)%nat -> nths l 0 n = firstn n l.
Proof. clear.
  unfold nths. revert n; induction l as [|x l IH]; intros [|n] L; cbn in L; try lia; [reflexivity|reflexivity|].
  cbn [seq map firstn nth]. f_equal. rewrite <- seq_shift, map_map. apply IH. lia.
Qed.
Lemma nths_del l k n : length l = S n -> (k <= n)%nat -> nths l 0 k ++ nths l (S k) (n - k) = del k l.
Proof. clear. intros L H. rewrite nths_first by lia. rewrite nths_skip by lia. reflexivity. Qed.

(** [get_mapped_index]. *)
Fixpoint mouts (spec : list bool) (ma : nat) (hit : bool) : list Z :=
  match spec with
  | [] => []
  | true :: spec' => mouts spec' (if hit then ma else (ma + ad_ind A)%nat) true
  | false :: spec' => nth ma ostr 0 :: mouts spec' (S ma) hit
  end.
Lemma mouts_hit spec : forall ma, mouts spec ma true = nths ostr ma (nslices spec).
Proof.
  induction spec as [|[] spec IH]; intros ma; [reflexivity| |]; unfold nslices; cbn [mouts filter negb length]; [apply IH|].
  unfold nths. cbn [seq map]. f_equal. apply IH.
Qed.
Lemma mouts_eq spec : forall ma, (lead spec < length spec)%nat ->
  mouts spec ma false = nths ostr ma (lead spec) ++ nths ostr (ma + lead spec + ad_ind A) (nslices spec - lead spec).
Proof.
  induction spec as [|[] spec IH]; intros ma L; cbn [lead length] in *; [lia| |]; unfold nslices; cbn [mouts filter negb length].
  - rewrite mouts_hit. rewrite Nat.sub_0_r, Nat.add_0_r. reflexivity.
  - rewrite IH by lia. unfold nths. cbn [seq map app Nat.sub]. f_equal. f_equal. f_equal. f_equal. lia.
Qed.

Lemma digit M d s q r : 0 <= M -> 0 <= q < d -> 0 < s -> 0 <= r < s -> Z.rem (Z.quot (M * (d * s) + (q * s + r)) s) d = q.
Proof.
  intros HM Hq Hs Hr. replace (M * (d * s) + (q * s + r)) with ((M * d + q) * s + r) by lia.
  assert (0 <= M * d) by nia. assert (0 <= (M * d + q) * s) by nia.
  rewrite Z.quot_div_nonneg by lia. rewrite Z.div_add_l by lia. rewrite (Z.div_small r s) by lia. rewrite Z.add_0_r.
  rewrite Z.rem_mod_nonneg by lia. rewrite Z.add_comm, Z.mod_add by lia. apply Z.mod_small. lia.
Qed.
Lemma mapped_eq spec : forall sh idx ma hit M acc, length sh = length spec -> in_range sh idx -> 0 <= M ->
  mapped A spec (istrides sh) sh ma hit (M * prod sh + rank sh idx) acc =
  Ok (fst acc + offset (pick true spec (istrides sh)) (pick true spec idx), snd acc + offset (mouts spec ma hit) (pick false spec idx)).
Proof.
  induction spec as [|b spec IH]; intros [|d sh] idx ma hit M acc L R HM; try discriminate L.
  - inversion R; subst. cbn. destruct acc; cbn. do 2 f_equal; lia.
  - inversion R as [|? i ? t H F]; subst. rewrite wt_cons. cbn [mapped prod].
    pose proof (rank_bounds _ _ F) as B.
    destruct (Z.eqb_spec (prod sh) 0); [lia|]. destruct (Z.eqb_spec d 0); [lia|]. cbn [orb].
    rewrite rank_cons by (apply in_range_len; exact F). rewrite digit by lia.
    replace (M * (d * prod sh) + (i * prod sh + rank sh t)) with ((M * d + i) * prod sh + rank sh t) by lia.
    destruct b; rewrite IH by (cbn in L; try lia; auto; nia); cbn [fst snd pick Bool.eqb mouts offset]; do 2 f_equal; unfold ostr; lia.
Qed.
End Geo.
