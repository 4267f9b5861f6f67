(** A range of a list that grows and shrinks: the translation of its updates. *)
From Verif Require Import Base SliceModel ShapeModel StateDataModel StateDataSpec Replay NodeSpec NodeLib BinaryModel BinaryProofs BasicModel ViewModel ViewProofs.
Local Open Scope Z_scope.

Lemma zrange_nth lo hi j : nth_error (zrange lo hi) j = if (j <? Z.to_nat (hi - lo))%nat then Some (lo + Z.of_nat j) else None.
Proof. unfold zrange. rewrite nth_error_map, nth_error_seq. destruct (j <? Z.to_nat (hi - lo))%nat; reflexivity. Qed.
Lemma zrange_len lo hi : length (zrange lo hi) = Z.to_nat (hi - lo).
Proof. unfold zrange. now rewrite map_length, seq_length. Qed.
Lemma in_zrange lo hi x : In x (zrange lo hi) <-> lo <= x < hi.
Proof.
  unfold zrange. rewrite in_map_iff. split.
  - intros (j & <- & H). apply in_seq in H. lia.
  - intros H. exists (Z.to_nat (x - lo)). split; [lia|]. apply in_seq. lia.
Qed.
Lemma zrange_nodup lo hi : NoDup (zrange lo hi).
Proof. apply NoDup_nth_error. intros i j Hi E. rewrite zrange_len in Hi. rewrite !zrange_nth in E.
  destruct (Nat.ltb_spec i (Z.to_nat (hi - lo))); [|lia]. destruct (Nat.ltb_spec j (Z.to_nat (hi - lo))); [|discriminate E]. injection E as E. lia. Qed.
Lemma zrange_snoc lo hi : lo <= hi -> zrange lo (hi + 1) = zrange lo hi ++ [hi].
Proof.
  intros H. unfold zrange. replace (Z.to_nat (hi + 1 - lo)) with (Z.to_nat (hi - lo) + 1)%nat by lia. rewrite seq_app, map_app. f_equal. cbn [seq map]. f_equal. lia.
Qed.
Lemma zrange_nil lo hi : hi <= lo -> zrange lo hi = [].
Proof. intros H. unfold zrange. now replace (Z.to_nat (hi - lo)) with 0%nat by lia. Qed.
Lemma zrange_rev_nth lo hi j : (j < Z.to_nat (hi - lo))%nat -> nth_error (rev (zrange lo hi)) j = Some (hi - Z.of_nat j - 1).
Proof.
  intros H. rewrite <- (Z2Nat.id (hi - lo)) in * by lia. set (m := Z.to_nat (hi - lo)) in *. assert (Eh : hi = lo + Z.of_nat m) by lia. clearbody m. subst hi. clear - H.
  revert j H. induction m as [|m IH]; intros j H; [lia|]. replace (lo + Z.of_nat (S m)) with (lo + Z.of_nat m + 1) by lia. rewrite zrange_snoc by lia.
  rewrite rev_app_distr. cbn [rev app]. destruct j as [|j]; [cbn [nth_error]; f_equal; lia|]. cbn [nth_error]. rewrite IH by lia. f_equal. lia.
Qed.

Lemma lset_map {T} (f g : Z -> T) l k i : nth_error l k = Some i -> NoDup l -> (forall x, In x l -> x <> i -> f x = g x) -> lset k (g i) (map f l) = map g l.
Proof.
  intros E N H. apply nth_error_ext. intros j. rewrite nth_error_lset, !nth_error_map, map_length.
  assert (Lk : (k < length l)%nat) by (eapply nth_error_lt; eauto). destruct (Nat.ltb_spec k (length l)); [|lia]. rewrite andb_true_r.
  destruct (Nat.eqb_spec k j) as [<-|Nj]; [now rewrite E|]. destruct (nth_error l j) as [x|] eqn:Ej; [|reflexivity]. cbn [option_map]. f_equal. apply H.
  - eapply nth_error_In; eauto.
  - intros ->. apply Nj. apply (proj1 (NoDup_nth_error l) N); [exact Lk|congruence].
Qed.

Lemma skip_cons {A} (x : A) : forall t l, nth_error l t = Some x -> skipn t l = x :: skipn (S t) l.
Proof. induction t as [|t IH]; intros [|y l] E; try discriminate E; cbn [nth_error] in E; [cbn; congruence|]. change (skipn (S t) (y :: l)) with (skipn t l). change (skipn (S (S t)) (y :: l)) with (skipn (S t) l). now apply IH. Qed.
Lemma first_snoc {A} (x : A) : forall t l, nth_error l t = Some x -> firstn (S t) l = firstn t l ++ [x].
Proof. induction t as [|t IH]; intros [|y l] E; try discriminate E; cbn [nth_error] in E; [cbn; congruence|]. change (firstn (S (S t)) (y :: l)) with (y :: firstn (S t) l). change (firstn (S t) (y :: l)) with (y :: firstn t l). cbn [app]. f_equal. now apply IH. Qed.

Section Range.
Context {V : Type}.
Variable veqb : V -> V -> bool.
Variable spec : forall x y, reflect (x = y) (veqb x y).
Notation replay := (replay veqb).
Variable dbg : bool.

(** The smallest size reached. *)
Lemma smallest_spec us : forall (l l' : list V) m0, replay l us = Some l' -> m0 <= Z.of_nat (length l) ->
  let m := snd (fold_left (fun (c : Z * Z) (u : update V) => let '(size, m) := c in
        if placed u then (size + 1, m) else if removed u then (size - 1, Z.min (size - 1) m) else (size, m)) us (Z.of_nat (length l), m0)) in
  m <= m0 /\ (forall i, Z.of_nat i < m -> Forall is_change (upds i us)) /\ (forall i, m <= Z.of_nat i < m0 -> upds i us <> []) /\ (0 <= m0 -> 0 <= m).
Proof.
  induction us as [|u us IH]; intros l l' m0 R Hm; cbn [fold_left]; cbv zeta.
  - cbn [snd]. split; [lia|]. split; [intros; constructor|]. split; [intros; lia|auto].
  - apply rp_cons_inv in R as (l1 & R1 & R2). apply (rp1_inv spec) in R1.
    destruct R1 as [o v -> E ->|v -> ->|o -> ->].
    + cbn [placed removed change uold uval]. specialize (IH _ _ m0 R2). rewrite lset_length in IH. destruct (IH Hm) as (I1 & I2 & I3 & I4). clear IH. cbv zeta in *.
      split; [exact I1|]. split; [|split; [|exact I4]].
      * intros i Hi. cbn [upds filter uidx change]. destruct (_ =? i)%nat; [|now apply I2]. constructor; [split; discriminate|now apply I2].
      * intros i Hi. cbn [upds filter uidx change]. destruct (_ =? i)%nat; [discriminate|now apply I3].
    + cbn [placed placement uold]. specialize (IH _ _ m0 R2). rewrite app_length in IH. cbn [length] in IH. replace (Z.of_nat (length l + 1)) with (Z.of_nat (length l) + 1) in IH by lia.
      destruct (IH ltac:(lia)) as (I1 & I2 & I3 & I4). clear IH. cbv zeta in *. split; [exact I1|]. split; [|split; [|exact I4]].
      * intros i Hi. cbn [upds filter uidx placement]. destruct (Nat.eqb_spec (length l) i); [lia|]. now apply I2.
      * intros i Hi. cbn [upds filter uidx placement]. destruct (Nat.eqb_spec (length l) i); [discriminate|now apply I3].
    + cbn [placed removed removal uold uval]. rewrite app_length in *. cbn [length] in *. replace (Z.of_nat (length l1 + 1) - 1) with (Z.of_nat (length l1)) by lia.
      specialize (IH _ _ (Z.min (Z.of_nat (length l1)) m0) R2). destruct (IH ltac:(lia)) as (I1 & I2 & I3 & I4). clear IH. cbv zeta in *. split; [lia|]. split; [|split].
      * intros i Hi. cbn [upds filter uidx removal]. destruct (Nat.eqb_spec (length l1) i); [lia|]. now apply I2.
      * intros i Hi. cbn [upds filter uidx removal]. destruct (Nat.eqb_spec (length l1) i); [discriminate|]. apply I3. lia.
      * intros. apply I4. lia.
Qed.

Definition firstold (us : list (update V)) : option V := fold_left (fun o u => match o with Some _ => o | None => uold u end) us None.
Definition lastval (us : list (update V)) : option V := fold_left (fun _ u => uval u) us None.
Lemma firstold_snoc us u : firstold (us ++ [u]) = match firstold us with Some x => Some x | None => uold u end.
Proof. unfold firstold. rewrite fold_left_app. cbn [fold_left]. destruct (fold_left _ us None); reflexivity. Qed.
Lemma lastval_snoc us u : lastval (us ++ [u]) = uval u.
Proof. unfold lastval. rewrite fold_left_app. reflexivity. Qed.
Lemma firstold_some x us : fold_left (fun (o : option V) (u : update V) => match o with Some _ => o | None => uold u end) us (Some x) = Some x.
Proof. induction us; cbn [fold_left]; auto. Qed.
Lemma chain_first x us o' : ochain (Some x) us o' -> us <> [] -> firstold us = Some x.
Proof. destruct us as [|u us]; [congruence|]. cbn [ochain]. intros [E _] _. unfold firstold. cbn [fold_left]. rewrite E. apply firstold_some. Qed.
Lemma chain_last us : forall o o', ochain o us o' -> us <> [] -> lastval us = o'.
Proof.
  induction us as [|u us IH]; intros o o' H N; [congruence|]. cbn [ochain] in H. destruct H as [_ H]. destruct us as [|u' us].
  - cbn in H. exact H.
  - rewrite <- (IH _ _ H ltac:(discriminate)). reflexivity.
Qed.
Lemma upds_snoc i us (u : update V) : upds i (us ++ [u]) = if (uidx u =? i)%nat then upds i us ++ [u] else upds i us.
Proof. unfold upds. rewrite filter_app. cbn [filter]. destruct (uidx u =? i)%nat; [reflexivity|apply app_nil_r]. Qed.

Section Core.
Variable growing shrinking : bool.
Variable a ds de frs : Z.
Variable v : list V.
Hypothesis Ha : 0 <= a.
Hypothesis Hd : a <= ds <= de.
Hypothesis Hf : a <= frs.
Definition dn := de - ds.
Definition delta := if growing then zrange ds de else if shrinking then rev (zrange ds de) else [].
Hypothesis Gs : growing && shrinking = false.
Hypothesis Ge : growing = false -> shrinking = false -> ds = de.
Definition frl := zrange frs ds.

Definition dent (us : list (update V)) (i : Z) : update V :=
  Upd (Z.to_nat (i - a)) (if shrinking then firstold (upds (Z.to_nat i) us) else None) (if growing then at_ptr v i else None).
Definition fent (us : list (update V)) (i : Z) : update V := Upd (Z.to_nat (i - a)) (firstold (upds (Z.to_nat i) us)) (lastval (upds (Z.to_nat i) us)).
Definition fapp (q : nat) : option nat := let i := Z.of_nat q in if (i <? ds) && (i <? frs) && (a <=? i) then Some (Z.to_nat (i - a)) else None.
Definition dstate us := map (dent us) delta ++ map (fent us) frl ++ remap fapp us.

Lemma delta_len : length delta = Z.to_nat dn.
Proof. unfold delta, dn. destruct growing; [apply zrange_len|]. destruct shrinking; [rewrite rev_length; apply zrange_len|]. rewrite (Ge eq_refl eq_refl). now rewrite Z.sub_diag. Qed.
Lemma delta_nodup : NoDup delta.
Proof. unfold delta. destruct growing; [apply zrange_nodup|]. destruct shrinking; [apply NoDup_rev, zrange_nodup|constructor]. Qed.
Lemma in_delta x : In x delta -> ds <= x < de.
Proof. unfold delta. destruct growing; [apply in_zrange|]. destruct shrinking; [rewrite <- in_rev; apply in_zrange|intros []]. Qed.

Lemma chk_true {T} c (r : res T) : c = true -> chk dbg c r = r.
Proof. intros ->. unfold chk. cbn [negb]. now rewrite andb_false_r. Qed.

Lemma dyn_loop (l : list V) us : forall l', replay l us = Some l' -> ds <= Z.max a (Z.of_nat (length l)) ->
  rfold (dyn_step dbg shrinking a ds de dn frs) (dstate []) us = Ok (dstate us).
Proof.
  induction us as [|u us IH] using rev_ind; intros l' R Hl; [reflexivity|].
  pose proof R as R0. apply rp_app_inv in R as (l1 & R1 & R2). rewrite rfold_app, (IH _ R1 Hl). cbn [rbind rfold].
  assert (G : dyn_step dbg shrinking a ds de dn frs (dstate us) u = Ok (dstate (us ++ [u]))); [|rewrite G; reflexivity].
  unfold dyn_step. set (i := Z.of_nat (uidx u)).
  assert (Ui : Z.to_nat i = uidx u) by (unfold i; lia).
  (* entries elsewhere are unaffected *)
  assert (Od : forall x, 0 <= x -> x <> i -> dent us x = dent (us ++ [u]) x).
  { intros x X0 Nx. unfold dent. rewrite upds_snoc. destruct (Nat.eqb_spec (uidx u) (Z.to_nat x)); [lia|reflexivity]. }
  assert (Of : forall x, 0 <= x -> x <> i -> fent us x = fent (us ++ [u]) x).
  { intros x X0 Nx. unfold fent. rewrite upds_snoc. destruct (Nat.eqb_spec (uidx u) (Z.to_nat x)); [lia|reflexivity]. }
  assert (Oa : (i <? ds) && (i <? frs) && (a <=? i) = false -> remap fapp (us ++ [u]) = remap fapp us).
  { intros E. unfold remap. rewrite flat_map_app. cbn [flat_map]. unfold fapp at 2. fold i. rewrite E. now rewrite !app_nil_r. }
  assert (Od' : (ds <= i < de -> shrinking = false) -> map (dent us) delta = map (dent (us ++ [u])) delta).
  { intros E. apply map_ext_in. intros x Hx. apply in_delta in Hx. destruct (Z.eq_dec x i) as [->|Nx]; [|apply Od; lia].
    unfold dent. now rewrite E. }
  assert (Of' : ~ (frs <= i < ds) -> map (fent us) frl = map (fent (us ++ [u])) frl).
  { intros E. apply map_ext_in. intros x Hx. unfold frl in Hx. apply in_zrange in Hx. apply Of; lia. }
  destruct (shrinking && ((ds <=? i) && (i <? de))) eqn:C1.
  - apply andb_prop in C1 as [Es C1]. apply andb_prop in C1 as [C1 C2]. apply Z.leb_le in C1. apply Z.ltb_lt in C2.
    assert (Eg : growing = false) by (destruct (proj1 (andb_false_iff _ _) Gs); congruence).
    assert (Nd : nth_error delta (Z.to_nat (de - i - 1)) = Some i).
    { unfold delta. rewrite Eg, Es. rewrite zrange_rev_nth by lia. f_equal. lia. }
    assert (Ld : (Z.to_nat (de - i - 1) < length (map (dent us) delta))%nat) by (rewrite map_length, delta_len; unfold dn; lia).
    unfold dstate at 1. rewrite nth_error_app1 by exact Ld. rewrite nth_error_map, Nd. cbn [option_map].
    cbn [dent uold]. rewrite Es. cbn [uidx].
    rewrite (chk_true (Z.of_nat (Z.to_nat (i - a)) =? i - a)) by (apply Z.eqb_eq; lia).
    unfold dstate. rewrite Oa by (destruct (Z.ltb_spec i ds); [lia|reflexivity]). rewrite <- (Of' ltac:(lia)).
    assert (Ed : forall e, e = dent (us ++ [u]) i -> lset (Z.to_nat (de - i - 1)) e (map (dent us) delta) = map (dent (us ++ [u])) delta).
    { intros e ->. apply lset_map; [exact Nd|exact delta_nodup|]. intros x Hx Nx. apply in_delta in Hx. apply Od; lia. }
    destruct (firstold (upds (Z.to_nat i) us)) as [x|] eqn:Ef.
    + f_equal. f_equal. rewrite <- (Ed (dent us i)).
      * symmetry. apply lset_same. rewrite nth_error_map, Nd. reflexivity.
      * unfold dent. rewrite Es, upds_snoc, Ui, Nat.eqb_refl. rewrite Ui in Ef. now rewrite firstold_snoc, Ef.
    + f_equal. rewrite lset_app_l by exact Ld. f_equal. apply Ed. unfold dent. rewrite Es, Eg, upds_snoc, Ui, Nat.eqb_refl. rewrite Ui in Ef. now rewrite firstold_snoc, Ef.
  - assert (C1' : ds <= i < de -> shrinking = false).
    { intros E. destruct (Z.leb_spec ds i); [|lia]. destruct (Z.ltb_spec i de); [|lia]. cbn [andb] in C1. now rewrite andb_true_r in C1. }
    destruct ((i <? ds) && (frs <=? i)) eqn:C2.
    + apply andb_prop in C2 as [C2 C3]. apply Z.ltb_lt in C2. apply Z.leb_le in C3.
      assert (Ln : (length (map (dent us) delta) <= Z.to_nat (dn + i - frs))%nat) by (rewrite map_length, delta_len; unfold dn in *; lia).
      assert (Nf : nth_error frl (Z.to_nat (i - frs)) = Some i).
      { unfold frl. rewrite zrange_nth. destruct (Nat.ltb_spec (Z.to_nat (i - frs)) (Z.to_nat (ds - frs))); [f_equal; lia|lia]. }
      assert (Lf : (Z.to_nat (i - frs) < length (map (fent us) frl))%nat) by (rewrite map_length; unfold frl; rewrite zrange_len; lia).
      assert (En : (Z.to_nat (dn + i - frs) - length (map (dent us) delta) = Z.to_nat (i - frs))%nat) by (rewrite map_length, delta_len; unfold dn in *; lia).
      unfold dstate at 1. rewrite nth_error_app2, En by exact Ln. rewrite nth_error_app1 by exact Lf. rewrite nth_error_map, Nf. cbn [option_map].
      cbn [fent uold uidx]. rewrite (chk_true (Z.of_nat (Z.to_nat (i - a)) =? i - a)) by (apply Z.eqb_eq; lia).
      unfold dstate. rewrite Oa by (destruct (Z.ltb_spec i frs); [lia|]; now rewrite andb_false_r). rewrite <- (Od' C1').
      assert (Ef : forall e, e = fent (us ++ [u]) i -> lset (Z.to_nat (i - frs)) e (map (fent us) frl) = map (fent (us ++ [u])) frl).
      { intros e ->. apply lset_map; [exact Nf|apply zrange_nodup|]. intros x Hx Nx. unfold frl in Hx. apply in_zrange in Hx. apply Of; lia. }
      assert (El : nth_error l (uidx u) <> None) by (apply nth_error_Some; unfold i in *; lia).
      destruct (firstold (upds (Z.to_nat i) us)) as [x|] eqn:Eo.
      * rewrite lset_app_r, En by exact Ln. rewrite lset_app_l by exact Lf. rewrite Ef; [reflexivity|]. unfold fent. rewrite upds_snoc, Ui, Nat.eqb_refl. rewrite Ui in Eo. now rewrite firstold_snoc, Eo, lastval_snoc.
      * rewrite Ui in Eo. destruct (nth_error l (uidx u)) as [x|] eqn:Ex; [|congruence].
        pose proof (replay_cells veqb spec _ _ _ R1 (uidx u)) as Ch. rewrite Ex in Ch.
        assert (Eu : upds (uidx u) us = []).
        { destruct (upds (uidx u) us) as [|w ws] eqn:Ew; [reflexivity|]. rewrite (chain_first _ _ _ Ch) in Eo by discriminate. discriminate Eo. }
        rewrite Eu in Ch. cbn [ochain] in Ch. assert (Eu' : uold u = Some x).
        { apply rp_cons_inv in R2 as (l2 & R2 & _). apply (replay1_cell veqb spec) in R2 as (R2 & _). congruence. }
        rewrite Eu'. rewrite chk_true by reflexivity. rewrite lset_app_r, En by exact Ln. rewrite lset_app_l by exact Lf. rewrite Ef; [reflexivity|]. unfold fent. rewrite upds_snoc, Ui, Nat.eqb_refl. now rewrite firstold_snoc, Eo, lastval_snoc, Eu'.
    + assert (C2' : ~ (frs <= i < ds)) by (destruct (Z.ltb_spec i ds); [|lia]; destruct (Z.leb_spec frs i); [discriminate C2|lia]).
      unfold dstate. rewrite <- (Od' C1'), <- (Of' C2').
      destruct ((i <? ds) && (a <=? i)) eqn:C3.
      * apply andb_prop in C3 as [C3 C4]. rewrite <- !app_assoc. f_equal. f_equal. f_equal. unfold remap. rewrite flat_map_app. cbn [flat_map]. unfold fapp at 3. fold i.
        apply Z.ltb_lt in C3. rewrite C4. destruct (Z.ltb_spec i ds); [|lia]. destruct (Z.ltb_spec i frs); [reflexivity|lia].
      * rewrite Oa; [reflexivity|]. destruct (i <? ds); [|reflexivity]. cbn [andb] in *. rewrite C3. now rewrite andb_false_r.
Qed.

Lemma rnew : (growing = true -> forall x, ds <= x < de -> at_ptr v x <> None) ->
  rfold (fun l i => if growing then match at_ptr v i with Some x => Ok (l ++ [Upd (Z.to_nat (i - a)) None (Some x)]) | None => UB end
                    else Ok (l ++ [Upd (Z.to_nat (i - a)) None None])) [] delta = Ok (map (dent []) delta).
Proof.
  intros H. assert (G : forall d l, (forall x, In x d -> ds <= x < de) ->
    rfold (fun l i => if growing then match at_ptr v i with Some x => Ok (l ++ [Upd (Z.to_nat (i - a)) None (Some x)]) | None => UB end
                    else Ok (l ++ [Upd (Z.to_nat (i - a)) None None])) l d = Ok (l ++ map (dent []) d)).
  { induction d as [|x d IH]; intros l Hd'; cbn [rfold map]; [now rewrite app_nil_r|].
    assert (E : dent [] x = Upd (Z.to_nat (x - a)) None (if growing then at_ptr v x else None)) by (unfold dent; cbn; now destruct shrinking).
    rewrite E. destruct growing.
    - specialize (H eq_refl x (Hd' x (or_introl eq_refl))). destruct (at_ptr v x); [|congruence]. cbn [rbind]. rewrite IH by (intros; apply Hd'; now right). now rewrite <- app_assoc.
    - cbn [rbind]. rewrite IH by (intros; apply Hd'; now right). now rewrite <- app_assoc. }
  rewrite (G delta [] in_delta). reflexivity.
Qed.

Definition dfin us (i : Z) : update V :=
  Upd (Z.to_nat (i - a)) (match firstold (upds (Z.to_nat i) us) with Some x => Some x | None => at_ptr v i end) None.
Lemma fill us : shrinking = true -> (forall x, ds <= x < de -> firstold (upds (Z.to_nat x) us) = None -> at_ptr v x <> None) ->
  rfold (fill_old de v) (dstate us) (seq 0 (Z.to_nat dn)) = Ok (map (dfin us) delta ++ map (fent us) frl ++ remap fapp us).
Proof.
  intros Es H. assert (Eg : growing = false) by (destruct (proj1 (andb_false_iff _ _) Gs); congruence).
  set (rest := map (fent us) frl ++ remap fapp us). unfold dstate. fold rest.
  assert (G : forall t, (t <= length delta)%nat -> rfold (fill_old de v) (map (dent us) delta ++ rest) (seq 0 t) = Ok (map (dfin us) (firstn t delta) ++ map (dent us) (skipn t delta) ++ rest)).
  { induction t as [|t IH]; intros Ht; [reflexivity|]. rewrite seq_S, rfold_app, IH by lia. cbn [rbind rfold plus].
    assert (Nd : nth_error delta t = Some (de - Z.of_nat t - 1)).
    { rewrite delta_len in Ht. unfold delta. rewrite Eg, Es. apply zrange_rev_nth. unfold dn in Ht. lia. }
    set (x := de - Z.of_nat t - 1) in *. assert (Hx : ds <= x < de) by (apply in_delta; eapply nth_error_In; eauto).
    pose proof (skip_cons _ _ _ Nd) as Sk. pose proof (first_snoc _ _ _ Nd) as Fk.
    assert (Lf : length (map (dfin us) (firstn t delta)) = t) by (rewrite map_length, firstn_length; lia).
    rewrite Sk, Fk, map_app. cbn [map app]. rewrite <- app_assoc. cbn [app].
    unfold fill_old. rewrite nth_error_app2, Lf, Nat.sub_diag by lia. cbn [nth_error]. cbn [dent uold uidx uval]. rewrite Es.
    fold x. destruct (firstold (upds (Z.to_nat x) us)) as [y|] eqn:Ef.
    - cbn [rbind]. f_equal. f_equal. f_equal. unfold dent, dfin. now rewrite Es, Eg, Ef.
    - specialize (H x Hx Ef). destruct (at_ptr v x) as [y|] eqn:Ev; [|congruence]. cbn [rbind]. f_equal.
      rewrite <- Lf at 1. rewrite lset_mid. f_equal. f_equal. unfold dfin. now rewrite Ef, Ev, Eg. }
  rewrite <- delta_len, (G (length delta)) by lia. now rewrite firstn_all, skipn_all.
Qed.
End Core.

Definition sub (l : list V) (o k : Z) : list V := firstn (Z.to_nat k) (skipn (Z.to_nat o) l).
Lemma sub_nth l o k j : nth_error (sub l o k) j = if (j <? Z.to_nat k)%nat then nth_error l (Z.to_nat o + j) else None.
Proof. unfold sub. rewrite nth_error_firstn. destruct (j <? Z.to_nat k)%nat; [apply nth_error_skipn|reflexivity]. Qed.
Lemma sub_len l o k : 0 <= o -> 0 <= k -> (0 < k -> o + k <= Z.of_nat (length l)) -> Z.of_nat (length (sub l o k)) = k.
Proof. intros H1 H2 H3. unfold sub. rewrite firstn_length, skipn_length. lia. Qed.

Lemma place_range (W v : list V) a lo c : Z.of_nat (length W) = lo - a -> 0 <= a -> lo + Z.of_nat c <= Z.of_nat (length v) ->
  replay W (map (fun i => Upd (Z.to_nat (i - a)) None (at_ptr v i)) (zrange lo (lo + Z.of_nat c))) = Some (W ++ sub v lo (Z.of_nat c)).
Proof.
  intros L Ha Hv. induction c as [|c IH].
  - rewrite Z.add_0_r, zrange_nil by lia. unfold sub. cbn. now rewrite app_nil_r.
  - replace (lo + Z.of_nat (S c)) with (lo + Z.of_nat c + 1) by lia. rewrite zrange_snoc by lia. rewrite map_app. cbn [map].
    destruct (nth_error_get v (i := Z.to_nat (lo + Z.of_nat c)) ltac:(lia)) as [x Ex].
    assert (Ea : at_ptr v (lo + Z.of_nat c) = Some x) by (unfold at_ptr; destruct (Z.ltb_spec (lo + Z.of_nat c) 0); [lia|exact Ex]).
    assert (Es : sub v lo (Z.of_nat (S c)) = sub v lo (Z.of_nat c) ++ [x]).
    { apply nth_error_ext. intros j. pose proof (sub_len v lo (Z.of_nat c) ltac:(lia) ltac:(lia) ltac:(lia)) as Ls. rewrite sub_nth.
      destruct (Nat.ltb_spec j (Z.to_nat (Z.of_nat (S c)))).
      - destruct (Nat.lt_ge_cases j c).
        + rewrite nth_error_app1 by lia. rewrite sub_nth. destruct (Nat.ltb_spec j (Z.to_nat (Z.of_nat c))); [reflexivity|lia].
        + rewrite nth_error_app2 by lia. replace (j - length (sub v lo (Z.of_nat c)))%nat with 0%nat by lia. cbn [nth_error]. rewrite <- Ex. f_equal. lia.
      - symmetry. apply nth_error_None. rewrite app_length. cbn [length]. lia. }
    rewrite Es, app_assoc. eapply rp_snoc; [apply IH; lia|]. rewrite Ea. apply (rp_place (veqb := veqb)). rewrite app_length.
    pose proof (sub_len v lo (Z.of_nat c) ltac:(lia) ltac:(lia) ltac:(lia)). lia.
Qed.
Lemma remove_range (W : list V) a lo f c : Z.of_nat (length W) = lo + Z.of_nat c - a -> 0 <= a <= lo ->
  (forall i, lo <= i < lo + Z.of_nat c -> f i = nth_error W (Z.to_nat (i - a))) ->
  replay W (map (fun i => Upd (Z.to_nat (i - a)) (f i) None) (rev (zrange lo (lo + Z.of_nat c)))) = Some (firstn (Z.to_nat (lo - a)) W).
Proof.
  revert W. induction c as [|c IH]; intros W L Ha Hf.
  - rewrite Z.add_0_r, zrange_nil by lia. cbn [rev map]. rewrite rp_nil. rewrite firstn_all2 by lia. reflexivity.
  - replace (lo + Z.of_nat (S c)) with (lo + Z.of_nat c + 1) in * by lia. rewrite zrange_snoc by lia. rewrite rev_app_distr. cbn [rev app map].
    destruct (snoc_cases W) as [->|(W' & x & ->)]; [cbn in L; lia|]. rewrite app_length in L. cbn [length] in L.
    rewrite Hf by lia. replace (Z.to_nat (lo + Z.of_nat c - a)) with (length W') by lia. rewrite nth_error_snoc.
    assert (R1 : replay1 veqb (W' ++ [x]) (Upd (length W') (Some x) None) = Some W') by (apply (rp_remove spec); reflexivity).
    rewrite (rp_cons _ _ _ _ R1), IH.
    + f_equal. rewrite firstn_app. replace (Z.to_nat (lo - a) - length W')%nat with 0%nat by lia. cbn. now rewrite app_nil_r.
    + lia.
    + lia.
    + intros i Hi. rewrite Hf by lia. apply nth_error_app1. lia.
Qed.

(** The translation is right. *)
Section Final.
Variable P0 P1 : list V.
Variable us : list (update V).
Variable a e0 e1 : Z.
Hypothesis R : replay P0 us = Some P1.
Hypothesis Ha : 0 <= a.
Hypothesis H0 : a <= e0 <= Z.max a (Z.of_nat (length P0)).
Hypothesis H1 : a <= e1 <= Z.max a (Z.of_nat (length P1)).
Let m := smallest_size (Z.of_nat (length P0)) us.
Let frs := Z.max m a.

Lemma m_spec : m <= Z.of_nat (length P0) /\ (forall i, Z.of_nat i < m -> Forall is_change (upds i us)) /\ (forall i, m <= Z.of_nat i < Z.of_nat (length P0) -> upds i us <> []).
Proof. destruct (smallest_spec us P0 P1 (Z.of_nat (length P0)) R ltac:(lia)) as (A & B & C & _). auto. Qed.

Lemma tail_ok ds W : a <= ds <= e1 -> ds <= e0 -> length W = Z.to_nat (e1 - a) ->
  (forall j, (j < Z.to_nat (e1 - a))%nat -> nth_error W j = if a + Z.of_nat j <? ds then nth_error P0 (Z.to_nat (a + Z.of_nat j)) else nth_error P1 (Z.to_nat (a + Z.of_nat j))) ->
  replay W (map (fent a us) (zrange frs ds) ++ remap (fapp a ds frs) us) = Some (sub P1 a (e1 - a)).
Proof.
  intros Hd Hd0 LW NW. destruct m_spec as (M1 & M2 & M3). pose proof (replay_cells veqb spec _ _ _ R) as Cells.
  pose proof (sub_len P1 a (e1 - a) ltac:(lia) ltac:(lia) ltac:(lia)) as LS.
  assert (FR : forall i, frs <= i < ds -> exists x y, nth_error P0 (Z.to_nat i) = Some x /\ nth_error P1 (Z.to_nat i) = Some y /\ fent a us i = change (Z.to_nat (i - a)) x y).
  { intros i Hi. destruct (nth_error_get P0 (i := Z.to_nat i) ltac:(lia)) as [x Ex]. destruct (nth_error_get P1 (i := Z.to_nat i) ltac:(lia)) as [y Ey].
    exists x, y. split; [exact Ex|]. split; [exact Ey|]. specialize (Cells (Z.to_nat i)). rewrite Ex, Ey in Cells. unfold fent, change.
    assert (N : upds (Z.to_nat i) us <> []) by (apply M3; lia). rewrite (chain_first _ _ _ Cells N), (chain_last _ _ _ Cells N). reflexivity. }
  assert (Fa : forall q j, fapp a ds frs q = Some j <-> (j < Z.to_nat (Z.min frs ds - a))%nat /\ q = Z.to_nat (a + Z.of_nat j)).
  { intros q j. unfold fapp. destruct (Z.ltb_spec (Z.of_nat q) ds); destruct (Z.ltb_spec (Z.of_nat q) frs); destruct (Z.leb_spec a (Z.of_nat q)); cbn [andb]; (split; [intros E; try discriminate E; assert (Z.to_nat (Z.of_nat q - a) = j) by congruence; lia|intros [E1 E2]; try lia; f_equal; lia]). }
  apply (changes_replay veqb spec).
  - lia.
  - apply Forall_app. split.
    + apply Forall_forall. intros u Hu. apply in_map_iff in Hu as (i & <- & Hi). apply in_zrange in Hi. destruct (FR i Hi) as (x & y & _ & _ & ->). split; discriminate.
    + apply Forall_forall. intros u Hu. unfold remap in Hu. apply in_flat_map in Hu as (w & Hw & Hu). destruct (fapp a ds frs (uidx w)) as [j|] eqn:E; [|destruct Hu].
      destruct Hu as [<-|[]]. apply Fa in E as [E1 E2]. assert (Hm : Z.of_nat (uidx w) < m) by lia. specialize (M2 _ Hm). rewrite Forall_forall in M2. destruct (M2 w) as [B1 B2]; [|split; assumption].
      apply filter_In. split; [exact Hw|apply Nat.eqb_refl].
  - rewrite LW. apply Forall_app. split.
    + apply Forall_forall. intros u Hu. apply in_map_iff in Hu as (i & <- & Hi). apply in_zrange in Hi. cbn [fent uidx]. lia.
    + apply Forall_forall. intros u Hu. unfold remap in Hu. apply in_flat_map in Hu as (w & Hw & Hu). destruct (fapp a ds frs (uidx w)) as [j|] eqn:E; [|destruct Hu].
      destruct Hu as [<-|[]]. apply Fa in E as [E1 E2]. cbn [uidx]. lia.
  - rewrite LW. intros j Hj. rewrite (NW j Hj), sub_nth. destruct (Nat.ltb_spec j (Z.to_nat (e1 - a))); [|lia]. replace (Z.to_nat a + j)%nat with (Z.to_nat (a + Z.of_nat j)) by lia.
    unfold upds. rewrite filter_app. fold (upds j (remap (fapp a ds frs) us)).
    assert (Ef : filter (fun u => uidx u =? j)%nat (map (fent a us) (zrange frs ds)) = if (frs <=? a + Z.of_nat j) && (a + Z.of_nat j <? ds) then [fent a us (a + Z.of_nat j)] else []).
    { assert (G : forall c lo, a <= lo -> filter (fun u => uidx u =? j)%nat (map (fent a us) (zrange lo (lo + Z.of_nat c))) = if (lo <=? a + Z.of_nat j) && (a + Z.of_nat j <? lo + Z.of_nat c) then [fent a us (a + Z.of_nat j)] else []).
      { clear - Ha. induction c as [|c IH]; intros lo Hlo.
        - rewrite Z.add_0_r, zrange_nil by lia. cbn [map filter]. destruct (Z.leb_spec lo (a + Z.of_nat j)); destruct (Z.ltb_spec (a + Z.of_nat j) lo); cbn [andb]; auto; lia.
        - replace (lo + Z.of_nat (S c)) with (lo + Z.of_nat c + 1) by lia. rewrite zrange_snoc by lia. rewrite map_app, filter_app, IH by exact Hlo. cbn [map filter fent uidx].
          destruct (Nat.eqb_spec (Z.to_nat (lo + Z.of_nat c - a)) j) as [E|E].
          + replace (a + Z.of_nat j) with (lo + Z.of_nat c) by lia. destruct (Z.leb_spec lo (lo + Z.of_nat c)); [|lia]. destruct (Z.ltb_spec (lo + Z.of_nat c) (lo + Z.of_nat c)); [lia|]. destruct (Z.ltb_spec (lo + Z.of_nat c) (lo + Z.of_nat c + 1)); [|lia]. reflexivity.
          + rewrite app_nil_r. destruct (Z.leb_spec lo (a + Z.of_nat j)); cbn [andb]; [|reflexivity]. destruct (Z.ltb_spec (a + Z.of_nat j) (lo + Z.of_nat c)); destruct (Z.ltb_spec (a + Z.of_nat j) (lo + Z.of_nat c + 1)); auto; lia. }
      destruct (Z.le_gt_cases frs ds) as [C|C].
      - replace ds with (frs + Z.of_nat (Z.to_nat (ds - frs))) by lia. apply G. unfold frs. lia.
      - rewrite zrange_nil by lia. cbn [map filter]. destruct (Z.leb_spec frs (a + Z.of_nat j)); destruct (Z.ltb_spec (a + Z.of_nat j) ds); cbn [andb]; auto; lia. }
    rewrite Ef. clear Ef.
    assert (None1 : ~ (j < Z.to_nat (Z.min frs ds - a))%nat -> upds j (remap (fapp a ds frs) us) = []).
    { intros N. unfold upds, remap. generalize us. intros l. induction l as [|u l IH]; [reflexivity|]. cbn [flat_map]. destruct (fapp a ds frs (uidx u)) as [q|] eqn:E; [|exact IH].
      cbn [app filter uidx]. apply Fa in E as [E1 E2]. destruct (Nat.eqb_spec q j); [lia|exact IH]. }
    destruct (Z.leb_spec frs (a + Z.of_nat j)) as [B1|B1]; destruct (Z.ltb_spec (a + Z.of_nat j) ds) as [B2|B2]; cbn [andb].
    + destruct (FR (a + Z.of_nat j) ltac:(lia)) as (x & y & Ex & Ey & Ee). rewrite None1 by lia. rewrite Ee, Ex, Ey. cbn [app ochain change uold uval]. auto.
    + rewrite None1 by lia. reflexivity.
    + cbn [app]. apply (remap_cells (fapp a ds frs) (Z.to_nat (Z.min frs ds - a)) (fun j => Z.to_nat (a + Z.of_nat j))); auto; lia.
    + rewrite None1 by lia. reflexivity.
Qed.
End Final.
End Range.
