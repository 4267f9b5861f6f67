From Verif Require Import Base SliceModel ShapeModel ShapeSpec ShapeProofs StateDataModel StateDataSpec Replay NodeSpec NodeLib BinaryModel Num QuadModel BinaryProofs NodeShape ConcatProofs PermModel PermSpec.

Lemma ztrunc_zq z : ztrunc (zq z) = z.
Proof.
  unfold ztrunc. pose proof (this_zq z) as H. unfold Qeq in H. cbn [Qnum Qden inject_Z] in H. rewrite Z.mul_1_r in H.
  rewrite H. apply Z.quot_mul. discriminate.
Qed.
Lemma below_some n x i : below n x = Some i <-> i < n /\ x = zq (Z.of_nat i).
Proof.
  unfold below. split.
  - intros H. apply find_some in H. destruct H as [H1 H2]. apply in_seq in H1. destruct (qeqb_spec x (zq (Z.of_nat i))); [|discriminate].
    split; [lia|assumption].
  - intros [H ->]. destruct (find _ (seq 0 n)) as [j|] eqn:E.
    + apply find_some in E. destruct E as [_ E]. destruct (qeqb_spec (zq (Z.of_nat i)) (zq (Z.of_nat j))) as [Q|]; [|discriminate].
      apply zq_inj in Q. f_equal. lia.
    + exfalso. assert (I : In i (seq 0 n)) by (apply in_seq; lia). pose proof (find_none _ _ E i I) as N. cbv beta in N. now rewrite qeqb_refl in N.
Qed.

(** * Multi-indices of a square array *)
Fixpoint nidx (n k : nat) : list (list nat) :=
  match k with O => [[]] | S k' => flat_map (fun i => map (cons i) (nidx n k')) (seq 0 n) end.
Fixpoint nrank (n : nat) (i : list nat) : nat := match i with [] => 0 | a :: t => a * n ^ length t + nrank n t end.
Notation valid n k i := (length i = k /\ Forall (fun a => a < n) i).

Lemma all_idx_nidx n k : all_idx (repeat (Z.of_nat n) k) = map (map Z.of_nat) (nidx n k).
Proof.
  induction k as [|k IH]; [reflexivity|]. cbn [repeat all_idx nidx]. rewrite IH, Nat2Z.id.
  generalize (seq 0 n) as l. induction l as [|i l IHl]; [reflexivity|]. cbn [flat_map]. rewrite map_app, IHl. f_equal.
  rewrite !map_map. reflexivity.
Qed.
Lemma nidx_in n k i : In i (nidx n k) -> valid n k i.
Proof.
  revert i. induction k as [|k IH]; intros i; cbn [nidx].
  - intros [<-|[]]. auto.
  - intros H. apply in_flat_map in H. destruct H as (a & Ia & H). apply in_map_iff in H. destruct H as (t & <- & It).
    apply in_seq in Ia. destruct (IH t It). cbn [length]. split; [lia|]. constructor; [lia|assumption].
Qed.
Lemma nrank_lt n k i : valid n k i -> nrank n i < n ^ k.
Proof.
  intros [<- F]. induction F as [|a t H F IH]; cbn [nrank length Nat.pow]; [lia|]. nia.
Qed.
Lemma nth_flat_const {A B} (f : A -> list B) N l : (forall a, In a l -> length (f a) = N) -> forall q r, r < N ->
  nth_error (flat_map f l) (q * N + r) = match nth_error l q with Some a => nth_error (f a) r | None => None end.
Proof.
  induction l as [|a l IH]; intros H q r Hr; [now destruct (q * N + r), q|].
  cbn [flat_map]. pose proof (H a (or_introl eq_refl)) as La. destruct q as [|q].
  - cbn [Nat.mul Nat.add nth_error]. apply nth_error_app1. lia.
  - rewrite nth_error_app2 by nia. replace (S q * N + r - length (f a)) with (q * N + r) by nia.
    cbn [nth_error]. apply IH; [|exact Hr]. intros; apply H. now right.
Qed.
Lemma nidx_length n k : length (nidx n k) = n ^ k.
Proof.
  induction k as [|k IH]; [reflexivity|]. cbn [nidx Nat.pow].
  rewrite <- (seq_length n 0) at 2. generalize (seq 0 n) as l. induction l as [|a l IHl]; [reflexivity|].
  cbn [flat_map length Nat.mul]. rewrite app_length, map_length, IHl, IH. reflexivity.
Qed.
Lemma nidx_nth n k i : valid n k i -> nth_error (nidx n k) (nrank n i) = Some i.
Proof.
  revert i. induction k as [|k IH]; intros i [L F].
  - destruct i; [reflexivity|discriminate].
  - destruct i as [|a t]; [discriminate|]. cbn [length] in L. inversion F as [|? ? Ha Ft]; subst. injection L as Lt.
    cbn [nidx nrank]. rewrite Lt. rewrite nth_flat_const.
    + assert (E : nth_error (seq 0 n) a = Some a).
      { rewrite nth_error_nth' with (d := 0) by (rewrite seq_length; lia). now rewrite seq_nth by lia. }
      rewrite E. rewrite nth_error_map, IH by auto. reflexivity.
    + intros b _. rewrite map_length. apply nidx_length.
    + now apply nrank_lt.
Qed.
Lemma rank_nrank n k i : length i = k -> rank (repeat (Z.of_nat n) k) (map Z.of_nat i) = Z.of_nat (nrank n i).
Proof.
  revert i. induction k as [|k IH]; intros i L; destruct i as [|a t]; try discriminate; [reflexivity|].
  cbn [repeat map nrank]. injection L as L. rewrite rank_cons by (rewrite repeat_length, map_length; lia). rewrite IH by auto.
  assert (P : prod (repeat (Z.of_nat n) k) = Z.of_nat (n ^ k)).
  { clear. induction k as [|k IH]; [reflexivity|]. cbn [repeat prod]. rewrite IH. cbn [Nat.pow]. lia. }
  rewrite P, L. lia.
Qed.
Lemma prod_side n k : prod (repeat (Z.of_nat n) k) = Z.of_nat (n ^ k).
Proof. induction k as [|k IH]; [reflexivity|]. cbn [repeat prod]. rewrite IH. cbn [Nat.pow]. lia. Qed.

(** * The odometer *)
Section Odo.
Variable n : nat.
Hypothesis Hn : 0 < n.
Variable order : list nat.
Hypothesis Lo : length order = n.
Let zo := map Z.of_nat order.
Let g (j : nat) : Z := Z.of_nat (nth j order 0).

Lemma zo_get j : j < n -> rget zo j = Ok (g j).
Proof.
  intros H. unfold rget, zo, g. rewrite nth_error_map, (nth_error_nth' order 0) by lia. reflexivity.
Qed.

Lemma odo_ok i : Forall (fun a => a < n) i ->
  exists w i2, odo n zo i (map g i) = Ok (w, i2, map g i2) /\ valid n (length i) i2 /\
    if w then S (nrank n i) = n ^ length i /\ i2 = repeat 0 (length i) else nrank n i2 = S (nrank n i).
Proof.
  induction 1 as [|a t Ha F IH].
  - exists true, []. cbn. repeat split; auto.
  - destruct IH as (w & i2 & E & [L2 F2] & W). cbn [map odo]. rewrite E. cbn [rbind]. destruct w.
    + destruct W as [W ->]. destruct (Nat.eqb_spec (S a) n) as [En|En].
      * rewrite zo_get by lia. cbn [rbind]. exists true, (0 :: repeat 0 (length t)). split; [reflexivity|]. split.
        -- cbn [length]. rewrite repeat_length. split; [reflexivity|]. constructor; [lia|assumption].
        -- split; [|reflexivity]. cbn [nrank length Nat.pow]. nia.
      * rewrite zo_get by lia. cbn [rbind]. exists false, (S a :: repeat 0 (length t)). split; [reflexivity|]. split.
        -- cbn [length]. rewrite repeat_length. split; [reflexivity|]. constructor; [lia|assumption].
        -- cbn [nrank]. rewrite repeat_length. assert (Z : nrank n (repeat 0 (length t)) = 0).
           { clear. induction (length t) as [|k IH]; cbn [repeat nrank]; [reflexivity|]. rewrite IH. lia. }
           rewrite Z. nia.
    + exists false, (a :: i2). split; [reflexivity|]. split; [cbn [length]; split; [lia|constructor; auto]|].
      cbn [nrank]. rewrite L2. lia.
Qed.

Lemma nrank_zero i : nrank n i = 0 -> Forall (fun a => a < n) i -> existsb (fun a => negb (a =? 0)) i = false.
Proof.
  intros H F. induction F as [|a t Ha F IH]; [reflexivity|]. cbn [nrank existsb] in *.
  assert (P : 0 < n ^ length t) by (apply Nat.neq_0_lt_0, Nat.pow_nonzero; lia).
  assert (a = 0) by nia. subst a. cbn. apply IH. nia.
Qed.
Lemma nrank_nonzero i : nrank n i <> 0 -> existsb (fun a => negb (a =? 0)) i = true.
Proof.
  intros H. induction i as [|a t IH]; [contradiction H; reflexivity|]. cbn [existsb]. destruct (Nat.eqb_spec a 0) as [-> |]; [|reflexivity].
  cbn [negb orb]. apply IH. cbn [nrank] in H. lia.
Qed.

Lemma skipn_nth {A} (l : list A) r x : nth_error l r = Some x -> skipn r l = x :: skipn (S r) l.
Proof. revert r. induction l as [|y l IH]; intros [|r] E; try discriminate E; cbn [skipn nth_error] in *; [congruence|]. now apply IH. Qed.

Variable k : nat.
Lemma offsets_ok fuel : forall i, valid n k i -> n ^ k - nrank n i <= fuel ->
  perm_offsets n k fuel zo i (map g i) = Ok (map (fun j => offset_of n k (map g j)) (skipn (nrank n i) (nidx n k))).
Proof.
  induction fuel as [|f IH]; intros i V Hf; pose proof (nrank_lt n k i V) as B; [lia|].
  cbn [perm_offsets]. destruct V as [Lk F]. destruct (odo_ok i F) as (w & i2 & E & V2 & W). rewrite E. cbn [rbind]. rewrite Lk in *.
  rewrite (skipn_nth _ _ i) by (apply nidx_nth; auto). cbn [map]. destruct w.
  - destruct W as [W ->]. replace (existsb _ (repeat 0 k)) with false by (clear; induction k; cbn; auto).
    rewrite W, skipn_all2 by (rewrite nidx_length; lia). reflexivity.
  - rewrite nrank_nonzero by lia. rewrite IH by (auto; lia). cbn [rbind]. rewrite W. reflexivity.
Qed.
End Odo.

Lemma to_int_small z : (0 <= z < 2147483648)%Z -> to_int z = z.
Proof. intros H. unfold to_int. rewrite Z.mod_small by lia. destruct (Z.ltb_spec z 2147483648); lia. Qed.

Lemma inner_ok sh : forall o acc, length o = length sh -> (0 <= acc)%Z -> Forall (fun d => 0 < d)%Z sh -> Forall (fun x => 0 <= x)%Z o ->
  (acc + 8 * rank sh o < 2147483648)%Z -> inner acc o (shape_to_strides sh) = (acc + 8 * rank sh o)%Z.
Proof.
  induction sh as [|d sh IH]; intros o acc L A D P B; destruct o as [|x o]; try discriminate; [cbn; lia|].
  injection L as L. inversion P as [|? ? Px Po]; subst. inversion D as [|? ? Dx Do]; subst. rewrite strides_cons. cbn [inner].
  rewrite rank_cons in * by lia.
  assert (R : (0 <= rank sh o)%Z).
  { clear - L Do Po. revert o L Po. induction Do as [|d sh Hd Hs IH]; intros [|x o] L P; try discriminate L; [cbn; lia|].
    injection L as L. inversion P; subst. rewrite rank_cons by lia. specialize (IH o L H2).
    assert (0 < prod sh)%Z by (clear - Hs; induction Hs; cbn [prod]; nia). nia. }
  assert (0 < prod sh)%Z by (clear - Do; induction Do; cbn [prod]; nia).
  rewrite to_int_small by nia. rewrite IH by (auto; nia). nia.
Qed.

Lemma offset_of_ok n k i : 0 < n -> (8 * Z.of_nat (n ^ k) < 2147483648)%Z -> valid n k i ->
  offset_of n k (map Z.of_nat i) = Z.of_nat (nrank n i).
Proof.
  intros Hn B [L F]. unfold offset_of. pose proof (nrank_lt n k i (conj L F)) as Lt.
  pose proof (rank_nrank n k i L) as R.
  rewrite inner_ok; rewrite ?R; rewrite ?map_length, ?repeat_length; auto; try lia.
  - rewrite Z.add_0_l. unfold to_u. rewrite Z.mod_small by (unfold UMOD; lia). rewrite Z.mul_comm, Z.div_mul; lia.
  - apply Forall_forall. intros d Id. apply repeat_spec in Id. lia.
  - apply Forall_map. eapply Forall_impl; [|exact F]. cbn. intros; lia.
Qed.

(** * Initial values *)
Definition pvals (n k : nat) (a : list Qc) (order : list nat) : list Qc :=
  map (fun i => nth (nrank n (map (fun j => nth j order 0) i)) a 0%Qc) (nidx n k).
Definition poffs (n k : nat) (order : list nat) : list Z :=
  map (fun i => Z.of_nat (nrank n (map (fun j => nth j order 0) i))) (nidx n k).

Lemma perm_fun_form n k a o v : perm_fun n k [a; o] = Some v -> exists zs, o = map (fun z => zq (Z.of_nat z)) zs /\
  Forall (fun z => z < n) zs /\ length zs = n /\ length a = n ^ k /\ v = pvals n k a zs.
Proof.
  unfold perm_fun. destruct (all_some (map (below n) o)) as [zs|] eqn:E; [|discriminate].
  destruct (Nat.eqb_spec (length a) (n ^ k)); [|discriminate]. destruct (Nat.eqb_spec (length zs) n); [|discriminate].
  intros H. injection H as <-. exists zs.
  assert (G : o = map (fun z => zq (Z.of_nat z)) zs /\ Forall (fun z => z < n) zs).
  { clear - E. revert zs E. induction o as [|x o IH]; intros zs E; cbn [map all_some] in E; [injection E as <-; auto|].
    destruct (below n x) as [z|] eqn:B; [|discriminate]. destruct (all_some (map (below n) o)) as [t|]; [|discriminate].
    injection E as <-. destruct (IH t eq_refl) as [-> F]. apply below_some in B. destruct B as [B ->]. cbn [map]. auto. }
  destruct G as [-> F]. repeat split; auto. unfold pvals. rewrite all_idx_nidx, map_map. apply map_ext_in. intros i I.
  apply nidx_in in I. destruct I as [L _]. f_equal. rewrite map_map.
  rewrite <- (map_map (fun j => nth (Z.to_nat (Z.of_nat j)) zs 0) Z.of_nat). rewrite rank_nrank by now rewrite map_length.
  rewrite Nat2Z.id. f_equal. apply map_ext. intros j. now rewrite Nat2Z.id.
Qed.
Lemma perm_fun_val n k a zs : Forall (fun z => z < n) zs -> length zs = n -> length a = n ^ k ->
  perm_fun n k [a; map (fun z => zq (Z.of_nat z)) zs] = Some (pvals n k a zs).
Proof.
  intros F L La. assert (E : all_some (map (below n) (map (fun z => zq (Z.of_nat z)) zs)) = Some zs).
  { clear - F. induction F as [|z zs H F IH]; [reflexivity|]. cbn [map all_some]. rewrite (proj2 (below_some n _ z)) by auto. now rewrite IH. }
  assert (N : perm_fun n k [a; map (fun z => zq (Z.of_nat z)) zs] <> None).
  { unfold perm_fun. rewrite E, La, L, !Nat.eqb_refl. discriminate. }
  destruct (perm_fun n k [a; map (fun z => zq (Z.of_nat z)) zs]) as [v|] eqn:Ev; [|congruence].
  destruct (perm_fun_form _ _ _ _ _ Ev) as (zs' & Ez & F' & L' & _ & ->). f_equal. f_equal.
  revert Ez. clear. revert zs'. induction zs as [|z zs IH]; intros [|y zs'] E; try discriminate; auto. cbn [map] in E.
  assert (E1 : zq (Z.of_nat z) = zq (Z.of_nat y)) by congruence. apply zq_inj in E1. f_equal; [lia|]. apply IH. congruence.
Qed.

Lemma order_valid n k order i : 0 < n -> length order = n -> Forall (fun z => z < n) order -> valid n k i -> valid n k (map (fun j => nth j order 0) i).
Proof.
  intros Hn Lo Fo [L F]. split; [now rewrite map_length|]. apply Forall_map. eapply Forall_impl; [|exact F]. cbn. intros j Hj.
  rewrite Forall_forall in Fo. apply Fo, nth_In. lia.
Qed.

Lemma perm_init_ok n k a zs : 0 < n -> (8 * Z.of_nat (n ^ k) < 2147483648)%Z -> Forall (fun z => z < n) zs -> length zs = n -> length a = n ^ k ->
  perm_init n k [still a; still (map (fun z => zq (Z.of_nat z)) zs)] = Ok (i_new (poffs n k zs) (pvals n k a zs)).
Proof.
  intros Hn B F L La. unfold perm_init. cbn [still pview].
  assert (Eo : map ztrunc (map (fun z => zq (Z.of_nat z)) zs) = map Z.of_nat zs).
  { rewrite map_map. apply map_ext. intros z. apply ztrunc_zq. }
  rewrite Eo. rewrite (zo_get n Hn zs L 0 Hn). cbn [rbind].
  replace (repeat (Z.of_nat (nth 0 zs 0)) k) with (map (fun j => Z.of_nat (nth j zs 0)) (repeat 0 k)) by (clear; induction k; cbn; congruence).
  assert (V0 : valid n k (repeat 0 k)).
  { split; [apply repeat_length|]. apply Forall_forall. intros x I. apply repeat_spec in I. lia. }
  rewrite (offsets_ok n Hn zs L k (n ^ k) (repeat 0 k) V0) by lia. cbn [rbind].
  assert (Z0 : nrank n (repeat 0 k) = 0) by (clear; induction k as [|k IH]; cbn [repeat nrank]; [reflexivity|]; rewrite IH; lia).
  rewrite Z0. cbn [skipn].
  assert (Eoff : map (fun j => offset_of n k (map (fun j0 => Z.of_nat (nth j0 zs 0)) j)) (nidx n k) = poffs n k zs).
  { apply map_ext_in. intros i I. apply nidx_in in I. rewrite <- (map_map (fun j => nth j zs 0) Z.of_nat).
    apply offset_of_ok; auto. now apply order_valid. }
  rewrite Eoff.
  assert (Ev : rmap (zget a) (poffs n k zs) = Ok (pvals n k a zs)).
  { unfold poffs, pvals.
    assert (H : forall i, In i (nidx n k) -> valid n k (map (fun j => nth j zs 0) i)).
    { intros i I. apply order_valid; auto. now apply nidx_in. }
    revert H. generalize (nidx n k) as l. induction l as [|i l IH]; intros H; [reflexivity|]. cbn [map rmap].
    pose proof (nrank_lt n k _ (H i (or_introl eq_refl))) as Lt.
    unfold zget at 1. destruct (Z.ltb_spec (Z.of_nat (nrank n (map (fun j => nth j zs 0) i))) 0); [lia|].
    rewrite Nat2Z.id. unfold rget. rewrite (nth_error_nth' a 0%Qc) by lia. cbn [rbind]. rewrite IH by (intros; apply H; now right). reflexivity. }
  rewrite Ev. reflexivity.
Qed.

(** * Moves on a matrix *)
Section Offs.
Variable n : nat.
Definition offs (f : nat -> Z) : list Z := map f (seq 0 (n * n)).

Lemma offs_get f p : p < n * n -> nth_error (offs f) p = Some (f p).
Proof.
  intros H. unfold offs. rewrite nth_error_map. rewrite nth_error_nth' with (d := 0) by (rewrite seq_length; lia).
  now rewrite seq_nth by lia.
Qed.
Lemma offs_ext f h : (forall m, m < n * n -> f m = h m) -> offs f = offs h.
Proof. intros H. apply map_ext_in. intros m I. apply in_seq in I. apply H. lia. Qed.
Lemma offs_lset f p v : p < n * n -> lset p v (offs f) = offs (fun m => if m =? p then v else f m).
Proof.
  intros H. apply nth_error_ext. intros i. rewrite nth_error_lset. destruct (Nat.ltb_spec i (n * n)) as [Hi|Hi].
  - rewrite !offs_get by auto. rewrite Nat.eqb_sym. destruct (Nat.eqb_spec i p) as [-> |]; [|reflexivity].
    cbn [andb]. rewrite (proj2 (Nat.ltb_lt _ _)); [reflexivity|]. unfold offs. now rewrite map_length, seq_length.
  - destruct (Nat.eqb_spec p i); [lia|]. cbn [andb]. rewrite (proj2 (nth_error_None _ _)), (proj2 (nth_error_None _ _)); auto;
      unfold offs; rewrite map_length, seq_length; lia.
Qed.

End Offs.

Section Moves.
Variable n : nat.
Hypothesis Hn : 0 < n.
Variable a : list Qc.
Hypothesis La : length a = n * n.
Variable off0 : list Z.
Variable dat0 : list Qc.
Hypothesis L0 : length off0 = n * n.
Hypothesis D0 : length dat0 = n * n.

(** Everything except where the offsets point. *)
Record pinv (d : idata) : Prop := {
  pi_lo : length (i_off d) = n * n;
  pi_dat : i_dat d = map (fun z => nth (Z.to_nat z) a 0%Qc) (i_off d);
  pi_rp : replay qeqb dat0 (i_diff d) = Some (i_dat d);
  pi_ch : Forall is_change (i_diff d);
  pi_un : i_undo (rev (i_diff d)) (rev (i_old d)) (i_off d) (i_dat d) = Ok (off0, dat0);
  pi_sz : i_size d = n * n }.

Lemma point_ok d f p st old neo : pinv d -> i_off d = offs n f -> p < n * n ->
  (0 <= f p + st * (neo - old) < Z.of_nat (n * n))%Z ->
  exists d', perm_point a st (zq old) (zq neo) d p = Ok d' /\ pinv d' /\
    i_off d' = offs n (fun m => if m =? p then (f p + st * (neo - old))%Z else f m).
Proof.
  intros I E Hp B. unfold perm_point, rget. rewrite E, offs_get by auto. cbn [rbind].
  rewrite zq_minus, zq_mult, zq_plus, ztrunc_zq. pose proof I as [Lo Id Ir Ic Iu Is]. set (off' := (f p + st * (neo - old))%Z) in *.
  assert (Ld : length (i_dat d) = n * n) by now rewrite Id, map_length.
  rewrite (nth_error_nth' (i_dat d) 0%Qc) by lia. cbn [rbind].
  unfold zget, rget. destruct (Z.ltb_spec off' 0); [lia|]. rewrite (nth_error_nth' a 0%Qc) by lia. cbn [rbind].
  eexists. split; [reflexivity|]. split; [|cbn [i_off]; now apply offs_lset].
  constructor; cbn [i_off i_dat i_diff i_old i_size].
  - now rewrite lset_length, <- E.
  - rewrite Id. rewrite <- E. now rewrite map_lset.
  - eapply rp_snoc; [exact Ir|]. apply (rp_change qeqb_spec). apply nth_error_nth'; lia.
  - apply Forall_app. split; [exact Ic|]. constructor; [|constructor]. split; discriminate.
  - rewrite !rev_app_distr. cbn [rev app i_undo change uold uidx].
    rewrite !lset_length, Ld, <- E, Lo, (proj2 (Nat.ltb_lt p (n * n))) by auto. cbn [andb]. rewrite !lset_lset.
    rewrite (@lset_same Z p (f p)) by (rewrite E; now apply offs_get). rewrite lset_same by (apply nth_error_nth'; lia).
    exact Iu.
  - exact Is.
Qed.

Lemma points_ok ps st old neo : NoDup ps -> forall d f, pinv d -> i_off d = offs n f ->
  (forall p, In p ps -> p < n * n /\ (0 <= f p + st * (neo - old) < Z.of_nat (n * n))%Z) ->
  exists d', rfold (perm_point a st (zq old) (zq neo)) d ps = Ok d' /\ pinv d' /\
    i_off d' = offs n (fun m => if existsb (Nat.eqb m) ps then (f m + st * (neo - old))%Z else f m).
Proof.
  induction 1 as [|p ps N ND IH]; intros d f I E B.
  - exists d. split; [reflexivity|]. split; [exact I|exact E].
  - destruct (B p (or_introl eq_refl)) as [Hp Bp].
    destruct (point_ok d f p st old neo I E ltac:(lia) Bp) as (d1 & E1 & I1 & O1).
    destruct (IH d1 _ I1 O1) as (d2 & E2 & I2 & O2).
    { intros q Iq. destruct (B q (or_intror Iq)) as [Hq Bq]. split; [exact Hq|].
      destruct (Nat.eqb_spec q p) as [-> |]; [contradiction|exact Bq]. }
    exists d2. cbn [rfold]. rewrite E1. cbn [rbind]. split; [exact E2|]. split; [exact I2|]. rewrite O2. apply offs_ext.
    intros m _. cbn [existsb]. destruct (Nat.eqb_spec m p) as [-> |]; cbn [orb].
    + destruct (existsb (Nat.eqb p) ps) eqn:X; [|reflexivity]. apply existsb_exists in X. destruct X as (y & Iy & Ey).
      apply Nat.eqb_eq in Ey. subst y. contradiction.
    + destruct (existsb (Nat.eqb m) ps); reflexivity.
Qed.

(** Offsets given by a row order and a column order. *)
Definition rc (R C : list nat) : list Z := offs n (fun m => (Z.of_nat (nth (m / n) R 0%nat) * Z.of_nat n + Z.of_nat (nth (m mod n) C 0%nat))%Z).
Notation zqs l := (map (fun z => zq (Z.of_nat z)) l).
Notation okord l := (length l = n /\ Forall (fun z => z < n) l).

Lemma okord_nth l i : length l = n -> Forall (fun z => z < n) l -> nth i l 0 < n.
Proof.
  intros L F. destruct (Nat.ltb_spec i n).
  - rewrite Forall_forall in F. apply F, nth_In. lia.
  - rewrite nth_overflow by lia. lia.
Qed.

Lemma nth_lset_nat (l : list nat) i v k : nth k (lset i v l) 0 = if (i =? k) && (k <? length l) then v else nth k l 0.
Proof.
  destruct (Nat.ltb_spec k (length l)) as [H|H].
  - apply nth_error_nth. rewrite nth_error_lset. rewrite Bool.andb_true_r. destruct (Nat.eqb_spec i k) as [-> |]; cbn [andb].
    + now rewrite (proj2 (Nat.ltb_lt _ _)) by auto.
    + now apply nth_error_nth'.
  - rewrite Bool.andb_false_r, !nth_overflow; auto. now rewrite lset_length.
Qed.

(** One update, in the rows. *)
Lemma row_update d R C u old neo : pinv d -> i_off d = rc R C -> okord R -> okord C ->
  uidx u < n -> nth_error R (uidx u) = Some old -> neo < n ->
  uold u = Some (zq (Z.of_nat old)) -> uval u = Some (zq (Z.of_nat neo)) ->
  exists d', perm_update n a (Z.of_nat n) n 1 d u = Ok d' /\ pinv d' /\ i_off d' = rc (lset (uidx u) neo R) C.
Proof.
  intros I E [LR FR] [LC FC] Hi Ho Hv Eo Ev. unfold perm_update. rewrite Eo, Ev. set (i := uidx u) in *.
  pose proof (nth_error_nth _ _ 0 Ho) as No.
  destruct (points_ok (map (fun j => i * n + j * 1) (seq 0 n)) (Z.of_nat n) (Z.of_nat old) (Z.of_nat neo)) with (d := d)
     (f := fun m => (Z.of_nat (nth (m / n) R 0%nat) * Z.of_nat n + Z.of_nat (nth (m mod n) C 0%nat))%Z) as (d' & E1 & I1 & O1); auto.
  - apply FinFun.Injective_map_NoDup; [|apply seq_NoDup]. intros x y. lia.
  - intros p Ip. apply in_map_iff in Ip. destruct Ip as (j & <- & Ij). apply in_seq in Ij.
    assert (D : (i * n + j * 1) / n = i) by (symmetry; apply (Nat.div_unique _ _ _ j); lia).
    rewrite D, No. pose proof (okord_nth C ((i * n + j * 1) mod n) LC FC). nia.
  - exists d'. split; [exact E1|]. split; [exact I1|]. rewrite O1. apply offs_ext. intros m Hm. rewrite nth_lset_nat, LR.
    assert (Hd : m / n < n) by (apply Nat.div_lt_upper_bound; lia). rewrite (proj2 (Nat.ltb_lt _ _)) by auto. rewrite Bool.andb_true_r.
    destruct (existsb (Nat.eqb m) (map (fun j => i * n + j * 1) (seq 0 n))) eqn:X.
    + apply existsb_exists in X. destruct X as (p & Ip & Ep). apply Nat.eqb_eq in Ep. subst p.
      apply in_map_iff in Ip. destruct Ip as (j & <- & Ij). apply in_seq in Ij.
      assert (D : (i * n + j * 1) / n = i) by (symmetry; apply (Nat.div_unique _ _ _ j); lia).
      rewrite D, Nat.eqb_refl, No. ring.
    + destruct (Nat.eqb_spec i (m / n)) as [Ed|]; [|reflexivity]. exfalso. rewrite <- Bool.not_true_iff_false in X. apply X.
      apply existsb_exists. exists m. split; [|apply Nat.eqb_refl]. apply in_map_iff. exists (m mod n).
      split; [rewrite Ed, Nat.mul_1_r; symmetry; rewrite (Nat.mul_comm (m / n)); apply Nat.div_mod; lia|].
      apply in_seq. pose proof (Nat.mod_upper_bound m n). lia.
Qed.
(** One update, in the columns. *)
Lemma col_update d R C u old neo : pinv d -> i_off d = rc R C -> okord R -> okord C ->
  uidx u < n -> nth_error C (uidx u) = Some old -> neo < n ->
  uold u = Some (zq (Z.of_nat old)) -> uval u = Some (zq (Z.of_nat neo)) ->
  exists d', perm_update n a 1 1 n d u = Ok d' /\ pinv d' /\ i_off d' = rc R (lset (uidx u) neo C).
Proof.
  intros I E [LR FR] [LC FC] Hi Ho Hv Eo Ev. unfold perm_update. rewrite Eo, Ev. set (i := uidx u) in *.
  pose proof (nth_error_nth _ _ 0 Ho) as No.
  assert (M : forall j, (i * 1 + j * n) mod n = i).
  { intros j. rewrite Nat.mod_add by lia. rewrite Nat.mul_1_r. now apply Nat.mod_small. }
  assert (D : forall j, (i * 1 + j * n) / n = j).
  { intros j. rewrite Nat.div_add by lia. rewrite Nat.mul_1_r, Nat.div_small; auto. }
  destruct (points_ok (map (fun j => i * 1 + j * n) (seq 0 n)) 1%Z (Z.of_nat old) (Z.of_nat neo)) with (d := d)
     (f := fun m => (Z.of_nat (nth (m / n) R 0%nat) * Z.of_nat n + Z.of_nat (nth (m mod n) C 0%nat))%Z) as (d' & E1 & I1 & O1); auto.
  - apply FinFun.Injective_map_NoDup; [|apply seq_NoDup]. intros x y. nia.
  - intros p Ip. apply in_map_iff in Ip. destruct Ip as (j & <- & Ij). apply in_seq in Ij.
    rewrite M, D, No. pose proof (okord_nth R j LR FR). nia.
  - exists d'. split; [exact E1|]. split; [exact I1|]. rewrite O1. apply offs_ext. intros m Hm. rewrite nth_lset_nat, LC.
    assert (Hd : m mod n < n) by (apply Nat.mod_upper_bound; lia). rewrite (proj2 (Nat.ltb_lt _ _)) by auto. rewrite Bool.andb_true_r.
    destruct (existsb (Nat.eqb m) (map (fun j => i * 1 + j * n) (seq 0 n))) eqn:X.
    + apply existsb_exists in X. destruct X as (p & Ip & Ep). apply Nat.eqb_eq in Ep. subst p.
      apply in_map_iff in Ip. destruct Ip as (j & <- & Ij). rewrite M, Nat.eqb_refl, No. ring.
    + destruct (Nat.eqb_spec i (m mod n)) as [Ed|]; [|reflexivity]. exfalso. rewrite <- Bool.not_true_iff_false in X. apply X.
      apply existsb_exists. exists m. split; [|apply Nat.eqb_refl]. apply in_map_iff. exists (m / n).
      split; [rewrite Ed, Nat.mul_1_r, (Nat.mul_comm (m / n)), Nat.add_comm; symmetry; apply Nat.div_mod; lia|].
      apply in_seq. split; [apply Nat.le_0_l|]; cbn [Nat.add]. apply Nat.div_lt_upper_bound; lia.
Qed.

(** A list of updates, replayed on the order. *)
Lemma updates_ok (upd : idata -> update Qc -> res idata) (look : list nat -> list Z) us :
  (forall d L u old neo, pinv d -> i_off d = look L -> okord L -> uidx u < n -> nth_error L (uidx u) = Some old -> neo < n ->
     uold u = Some (zq (Z.of_nat old)) -> uval u = Some (zq (Z.of_nat neo)) ->
     exists d', upd d u = Ok d' /\ pinv d' /\ i_off d' = look (lset (uidx u) neo L)) ->
  Forall is_change us -> Forall (fun u => forall x, uold u = Some x \/ uval u = Some x -> below n x <> None) us ->
  forall d L l', pinv d -> i_off d = look L -> okord L -> replay qeqb (zqs L) us = Some l' ->
  exists d' L', rfold upd d us = Ok d' /\ pinv d' /\ i_off d' = look L' /\ okord L' /\ l' = zqs L'.
Proof.
  intros U. induction us as [|u us IH]; intros FC FB d L l' I E [LL FL] RP.
  - rewrite rp_nil in RP. injection RP as <-. exists d, L. auto 6.
  - inversion FC as [|? ? Cu FC']; subst. inversion FB as [|? ? Bu FB']; subst.
    apply rp_cons_inv in RP. destruct RP as (l1 & R1 & R2).
    destruct (rp1_inv qeqb_spec _ _ _ R1) as [o v Eu En El|v Eu El|o Eu El].
    + rewrite nth_error_map in En. destruct (nth_error L (uidx u)) as [old|] eqn:EL; [|discriminate]. cbn [option_map] in En.
      injection En as En'.
      assert (Ho : o = zq (Z.of_nat old)) by congruence.
      assert (Eo : uold u = Some (zq (Z.of_nat old))) by (rewrite Eu; cbn; now f_equal).
      assert (Ev : uval u = Some v) by now rewrite Eu.
      pose proof (Bu v (or_intror Ev)) as Bv. destruct (below n v) as [neo|] eqn:Eb; [|congruence]. apply below_some in Eb.
      destruct Eb as [Hneo Evv]. rewrite Evv in *.
      assert (Hi : uidx u < n) by (rewrite <- LL; apply nth_error_Some; congruence).
      destruct (U d L u old neo I E (conj LL FL) Hi EL Hneo Eo Ev) as (d1 & E1 & I1 & O1).
      destruct (IH FC' FB' d1 (lset (uidx u) neo L) l' I1 O1) as (d2 & L2 & E2 & I2 & O2 & K2 & ->).
      * split; [now rewrite lset_length|]. apply Forall_forall. intros z Iz. apply In_nth_error in Iz. destruct Iz as [k Ek].
        rewrite nth_error_lset in Ek. destruct (_ && _); [injection Ek as <-; exact Hneo|].
        rewrite Forall_forall in FL. apply FL. eapply nth_error_In, Ek.
      * rewrite map_lset. rewrite <- El. exact R2.
      * exists d2, L2. cbn [rfold]. rewrite E1. cbn [rbind]. auto 6.
    + destruct Cu as [Cu _]. rewrite Eu in Cu. contradiction Cu. reflexivity.
    + destruct Cu as [_ Cu]. rewrite Eu in Cu. contradiction Cu. reflexivity.
Qed.
End Moves.
