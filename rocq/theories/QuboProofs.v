(** Quadratic models from dictionaries of biases. *)
From Verif Require Import Base Num SliceModel ShapeModel StateDataModel NodeSpec BinaryModel NarySpec QuadModel QuadSpec QuadProofs QuadProofs2 QuadProofs3 QuadProps PyModel PySpec GetProofs3 PyProofs PyRules CqmModel CqmSpec CqmProofs CqmProofs2 QuboModel QuboSpec.
Set Implicit Arguments.
Local Open Scope Z_scope.

Lemma intc_id z : 0 <= z < 2147483648 -> intc z = z.
Proof. intros H. unfold intc. rewrite Z.mod_small; lia. Qed.
Lemma intc_range z : - 2147483648 <= intc z < 2147483648.
Proof. unfold intc. pose proof (Z.mod_pos_bound (z + 2147483648) 4294967296). lia. Qed.
Lemma intc_small z : - 2147483648 <= z < 2147483648 -> intc z = z.
Proof. intros H. unfold intc. rewrite Z.mod_small; lia. Qed.
Lemma ssize_ok z : - 9223372036854775808 <= z < 9223372036854775808 -> ssize z = Ok z.
Proof. intros H. unfold ssize. destruct (Z.leb_spec (- 9223372036854775808) z); [|lia]. destruct (Z.ltb_spec z 9223372036854775808); [reflexivity|lia]. Qed.
Lemma ssize_cases z : ssize z = Ok z \/ ssize z = Throw.
Proof. unfold ssize. destruct (_ && _); auto. Qed.

(** * Linear biases *)
Definition weighted (l : list num) (x : nat -> num) : num := qsum_of (map (fun i => nth i l 0 * x i)%Qc (seq 0 (length l))).
Lemma weighted_cons a l x : weighted (a :: l) x = (a * x O + weighted l (fun i => x (S i)))%Qc.
Proof. unfold weighted. cbn [length seq map qsum_of nth]. rewrite <- seq_shift, map_map. reflexivity. Qed.
Lemma weighted_lset c : forall l v x, (v < length l)%nat -> weighted (lset v (nth v l 0 + c)%Qc l) x = (weighted l x + c * x v)%Qc.
Proof.
  induction l as [|a l IH]; intros v x Hv; [cbn in Hv; lia|]. destruct v as [|v]; cbn [lset nth].
  - rewrite !weighted_cons. ring.
  - rewrite !weighted_cons, IH by (cbn in Hv; lia). ring.
Qed.
Lemma weighted_zeros : forall n x, weighted (repeat 0%Qc n) x = 0%Qc.
Proof. induction n as [|n IH]; intros x; [reflexivity|]. cbn [repeat]. rewrite weighted_cons, IH. ring. Qed.
Lemma nth_lset_eq (l : list num) i x : (i < length l)%nat -> nth i (lset i x l) 0%Qc = x.
Proof. intros H. exact (nth_error_nth _ _ 0%Qc (nth_error_lset_eq x l H)). Qed.
Lemma nth_lset_neq (l : list num) i j x : i <> j -> nth j (lset i x l) 0%Qc = nth j l 0%Qc.
Proof. intros H. pose proof (nth_error_lset_neq x l H) as E. rewrite <- !nth_default_eq. unfold nth_default. now rewrite E. Qed.
Lemma lin_entries_ok n : (Z.of_nat n <= 2147483648) -> forall L l, length l = n -> Forall (fun e => within n (fst e)) L ->
  exists l', rfold (lin_entry n) l L = Ok l' /\ length l' = n /\ (forall i, nth i l' 0%Qc = nth i l 0 + bias_of L (Z.of_nat i))%Qc /\
    forall x, weighted l' x = (weighted l x + qsum_of (map (fun e => snd e * x (Z.to_nat (fst e))) L))%Qc.
Proof.
  intros Hn. induction L as [|[v c] L IH]; intros l Hl F.
  - exists l. split; [reflexivity|]. split; [exact Hl|]. split; [intros i; cbn; ring|]. intros x. cbn. ring.
  - inversion F as [|? ? Hv F']; subst. unfold within in Hv. cbn [fst] in Hv. cbn [rfold]. unfold lin_entry at 1. cbn [fst snd]. rewrite ssize_ok by lia. cbn [rbind].
    destruct (Z.leb_spec 0 v); [|lia]. destruct (Z.ltb_spec v (Z.of_nat (length l))); [|lia]. cbn [andb]. assert (Hv' : (Z.to_nat v < length l)%nat) by lia.
    unfold rget. destruct (nth_error l (Z.to_nat v)) as [b|] eqn:E; [|apply nth_error_None in E; lia]. cbn [rbind]. pose proof (nth_error_nth _ _ 0%Qc E) as Eb. subst b.
    destruct (IH (lset (Z.to_nat v) (nth (Z.to_nat v) l 0 + c)%Qc l)) as (l' & E' & L' & N' & W'); [apply lset_length|exact F'|]. exists l'. split; [exact E'|]. split; [exact L'|]. split.
    + intros i. rewrite N'. unfold bias_of. cbn [filter fst]. destruct (Z.eqb_spec v (Z.of_nat i)) as [->|Hne].
      * rewrite Nat2Z.id in *. cbn [map snd qsum_of]. rewrite nth_lset_eq by assumption. ring.
      * rewrite nth_lset_neq by lia. reflexivity.
    + intros x. rewrite W', weighted_lset by exact Hv'. cbn [map fst snd qsum_of]. ring.
Qed.
Lemma lin_entries_bad n L : Exists (fun e => ~ within n (fst e)) L -> forall l, length l = n -> rfold (lin_entry n) l L = Throw.
Proof.
  induction 1 as [[v c] L Hv|[v c] L _ IH]; intros l Hl; cbn [rfold]; unfold lin_entry at 1; cbn [fst snd] in *; unfold within in *.
  - destruct (ssize_cases v) as [-> | ->]; [|reflexivity]. cbn [rbind]. destruct (Z.leb_spec 0 v); [|reflexivity]. destruct (Z.ltb_spec v (Z.of_nat n)); [lia|reflexivity].
  - destruct (ssize_cases v) as [-> | ->]; [|reflexivity]. cbn [rbind]. destruct (Z.leb_spec 0 v); [|reflexivity]. destruct (Z.ltb_spec v (Z.of_nat n)); [|reflexivity]. cbn [andb].
    unfold rget. destruct (nth_error l (Z.to_nat v)) as [b|] eqn:E; [|apply nth_error_None in E; lia]. cbn [rbind]. apply IH. now rewrite lset_length.
Qed.

(** * Interactions *)
Definition fits64 (z : Z) : Prop := - 9223372036854775808 <= z < 9223372036854775808.
Definition wrapped (t : Z * Z * num) : Z * Z * num := (intc (fst (fst t)), intc (snd (fst t)), snd t).
Lemma quad_entries_from Q : Forall (fun t => fits64 (fst (fst t)) /\ fits64 (snd (fst t))) Q -> forall l, rfold quad_entry l Q = Ok (l ++ map wrapped Q).
Proof.
  induction 1 as [|[[u v] b] Q [Hu Hv] _ IH]; intros l; [cbn; now rewrite app_nil_r|]. cbn [rfold]. unfold quad_entry at 1. cbn [fst snd] in *. rewrite !ssize_ok by assumption. cbn [rbind]. rewrite IH, <- app_assoc. reflexivity.
Qed.
Lemma quad_entries_ok Q : Forall (fun t => fits64 (fst (fst t)) /\ fits64 (snd (fst t))) Q -> quad_entries Q = Ok (map wrapped Q).
Proof. intros H. exact (quad_entries_from H []). Qed.
Lemma quad_entries_bad Q : ~ Forall (fun t => fits64 (fst (fst t)) /\ fits64 (snd (fst t))) Q -> forall l, rfold quad_entry l Q = Throw.
Proof.
  induction Q as [|[[u v] b] Q IH]; intros H l; [exfalso; apply H; constructor|]. cbn [rfold]. unfold quad_entry at 1. cbn [fst snd].
  assert (S : forall z, ssize z = Throw \/ (ssize z = Ok z /\ fits64 z)) by (intros z; unfold ssize, fits64; destruct (Z.leb_spec (- 9223372036854775808) z); [|now left]; destruct (Z.ltb_spec z 9223372036854775808); [right; split; [reflexivity|lia]|now left]).
  destruct (S u) as [->|[-> Hu]]; [reflexivity|]. cbn [rbind]. destruct (S v) as [->|[-> Hv]]; [reflexivity|]. cbn [rbind]. apply IH. intros F. apply H. constructor; auto.
Qed.
Lemma wrapped_id n Q : Z.of_nat n <= 2147483648 -> Forall (fun t => within n (fst (fst t)) /\ within n (snd (fst t))) Q -> map wrapped Q = Q.
Proof. intros Hn. induction 1 as [|[[u v] b] Q [Hu Hv] _ IH]; [reflexivity|]. cbn [map]. rewrite IH. unfold wrapped, within in *. cbn [fst snd] in *. now rewrite !intc_id by lia. Qed.

(** * The biases *)
Definition one_lin (i : nat) (o : qop) : num := match o with AddLin v c => if (i =? v)%nat then c else 0%Qc | _ => 0%Qc end.
Definition one_quad (i j : nat) (o : qop) : num := match o with AddQuad u v c => if same_pair u v i j then c else 0%Qc | _ => 0%Qc end.
Definition adds_only (o : qop) : Prop := match o with AddLin _ _ | AddQuad _ _ _ => True | _ => False end.
Lemma fold_biases n : forall ops b i j, Forall adds_only ops ->
  b_lin (fold_left (spec_qop n) ops b) i = (b_lin b i + qsum_of (map (one_lin i) ops))%Qc /\ b_quad (fold_left (spec_qop n) ops b) i j = (b_quad b i j + qsum_of (map (one_quad i j) ops))%Qc.
Proof.
  induction ops as [|o ops IH]; intros b i j F; [cbn; split; ring|]. inversion F as [|? ? Ho F']; subst. cbn [fold_left map qsum_of]. destruct (IH (spec_qop n b o) i j F') as [-> ->]. destruct o; try contradiction; cbn [spec_qop at_lin at_quad b_lin b_quad one_lin one_quad].
  - destruct (i =? v)%nat; split; ring.
  - destruct (same_pair u v i j); split; ring.
Qed.
Lemma coord_adds lg quad lin : Forall adds_only (coord_ops lg quad lin).
Proof. apply Forall_app. split; apply Forall_map, Forall_forall; [intros i _; exact I|]. intros [[u v] b] _. cbn. destruct (_ && _); exact I. Qed.
Lemma sum_zero {A} (f : A -> num) l : (forall a, In a l -> f a = 0%Qc) -> qsum_of (map f l) = 0%Qc.
Proof. induction l as [|a l IH]; intros H; [reflexivity|]. cbn [map qsum_of]. rewrite H by now left. rewrite IH by (intros; apply H; now right). ring. Qed.
Lemma sum_one (lin : list num) i : qsum_of (map (fun k => if (i =? k)%nat then nth k lin 0%Qc else 0%Qc) (seq 0 (length lin))) = nth i lin 0%Qc.
Proof.
  revert i. induction lin as [|a lin IH]; intros i; [now destruct i|]. cbn [length seq map qsum_of]. rewrite <- seq_shift, map_map. destruct i as [|i]; cbn [Nat.eqb nth].
  - rewrite sum_zero by reflexivity. ring.
  - rewrite IH. ring.
Qed.
Lemma sum_filter {A} (p : A -> bool) (f : A -> num) l : qsum_of (map f (filter p l)) = qsum_of (map (fun a => if p a then f a else 0%Qc) l).
Proof. induction l as [|a l IH]; [reflexivity|]. cbn [filter map qsum_of]. destruct (p a); cbn [map qsum_of]; rewrite IH; ring. Qed.
Lemma sum_plus {A} (f g : A -> num) l : (qsum_of (map f l) + qsum_of (map g l))%Qc = qsum_of (map (fun a => f a + g a)%Qc l).
Proof. induction l as [|a l IH]; [cbn; ring|]. cbn [map qsum_of]. rewrite <- IH. ring. Qed.
Lemma coord_lin lg n quad lin i : Forall (in_coords n) quad -> (i < n)%nat ->
  qsum_of (map (one_lin i) (coord_ops lg quad lin)) = (nth i lin 0 + if lg then bias_of2 quad (Z.of_nat i) (Z.of_nat i) else 0)%Qc.
Proof.
  intros F Hi. unfold coord_ops. rewrite map_app, qsum_app, !map_map. cbn [one_lin]. rewrite sum_one. f_equal. unfold bias_of2. rewrite sum_filter. destruct lg.
  - f_equal. apply map_ext_in. intros [[u v] b] Ht. rewrite Forall_forall in F. destruct (F _ Ht) as [Hu Hv]. cbn [fst snd coord_op andb] in *. destruct (Z.eqb_spec u v) as [->|Hne]; cbn [one_lin].
    + destruct (Nat.eqb_spec i (Z.to_nat v)), (Z.eqb_spec v (Z.of_nat i)); cbn [andb]; try reflexivity; lia.
    + destruct (Z.eqb_spec u (Z.of_nat i)), (Z.eqb_spec v (Z.of_nat i)); cbn [andb]; try reflexivity; lia.
  - apply sum_zero. intros [[u v] b] _. reflexivity.
Qed.
Lemma coord_quad lg n quad lin i j : Forall (in_coords n) quad -> (i < n)%nat -> (j < n)%nat ->
  qsum_of (map (one_quad i j) (coord_ops lg quad lin)) =
  if (i =? j)%nat then (if lg then 0 else bias_of2 quad (Z.of_nat i) (Z.of_nat i))%Qc else (bias_of2 quad (Z.of_nat i) (Z.of_nat j) + bias_of2 quad (Z.of_nat j) (Z.of_nat i))%Qc.
Proof.
  intros F Hi Hj. unfold coord_ops. rewrite map_app, qsum_app, !map_map. cbn [one_quad]. rewrite sum_zero, Qcplus_0_l by reflexivity. unfold bias_of2. rewrite !sum_filter, sum_plus.
  destruct (Nat.eqb_spec i j) as [<-|Hne]; [destruct lg|].
  - apply sum_zero. intros [[u v] b] Ht. rewrite Forall_forall in F. destruct (F _ Ht) as [Hu Hv]. cbn [fst snd coord_op andb] in *. destruct (Z.eqb_spec u v); cbn [one_quad]; [reflexivity|]. unfold same_pair.
    destruct (Nat.eqb_spec (Z.to_nat u) i), (Nat.eqb_spec (Z.to_nat v) i); cbn [andb orb]; try reflexivity; lia.
  - f_equal. apply map_ext_in. intros [[u v] b] Ht. rewrite Forall_forall in F. destruct (F _ Ht) as [Hu Hv]. cbn [fst snd coord_op andb one_quad] in *. unfold same_pair.
    destruct (Nat.eqb_spec (Z.to_nat u) i), (Nat.eqb_spec (Z.to_nat v) i), (Z.eqb_spec u (Z.of_nat i)), (Z.eqb_spec v (Z.of_nat i)); cbn [andb orb]; try reflexivity; lia.
  - f_equal. apply map_ext_in. intros [[u v] b] Ht. rewrite Forall_forall in F. destruct (F _ Ht) as [Hu Hv]. cbn [fst snd coord_op] in *. destruct lg; cbn [andb]; [destruct (Z.eqb_spec u v) as [->|Huv]|]; cbn [one_quad].
    + destruct (Z.eqb_spec v (Z.of_nat i)), (Z.eqb_spec v (Z.of_nat j)); cbn [andb]; try ring; lia.
    + unfold same_pair. destruct (Nat.eqb_spec (Z.to_nat u) i), (Nat.eqb_spec (Z.to_nat v) j), (Nat.eqb_spec (Z.to_nat u) j), (Nat.eqb_spec (Z.to_nat v) i), (Z.eqb_spec u (Z.of_nat i)), (Z.eqb_spec v (Z.of_nat j)), (Z.eqb_spec u (Z.of_nat j)), (Z.eqb_spec v (Z.of_nat i)); cbn [andb orb]; try ring; lia.
    + unfold same_pair. destruct (Nat.eqb_spec (Z.to_nat u) i), (Nat.eqb_spec (Z.to_nat v) j), (Nat.eqb_spec (Z.to_nat u) j), (Nat.eqb_spec (Z.to_nat v) i), (Z.eqb_spec u (Z.of_nat i)), (Z.eqb_spec v (Z.of_nat j)), (Z.eqb_spec u (Z.of_nat j)), (Z.eqb_spec v (Z.of_nat i)); cbn [andb orb]; try ring; lia.
Qed.

(** * Acceptance *)
Lemma existsb_in {A} (f : A -> bool) l t : existsb f l = false -> In t l -> f t = false.
Proof. intros E H. destruct (f t) eqn:F; [|reflexivity]. rewrite <- E. symmetry. apply existsb_exists. eauto. Qed.
Section Accept.
Variables (lg : bool) (m : pym) (y : nat) (s : sym) (n : nat).
Hypothesis Hy : nth_error (p_syms m) y = Some s.
Hypothesis Hsh : s_shape s = [Z.of_nat n].
Hypothesis Hn : (1 <= n)%nat.

Definition extended (q : qmodel) : pym := Pym (p_syms m ++ [Sym (KQuad lg q) [y] [] true]) (p_obj m) (p_cons m).
(** What the biases of the node are, with those of squares of variables that are 0 or 1 among the linear ones. *)
Definition has_biases (q : qmodel) (quad : list (Z * Z * num)) (lin : nat -> num) : Prop := qm_n q = n /\ forall i j, (i < n)%nat -> (j < n)%nat ->
  get_linear q i = Ok (lin i + if lg then bias_of2 quad (Z.of_nat i) (Z.of_nat i) else 0)%Qc /\
  get_quadratic q i j = Ok (if (i =? j)%nat then (if lg then 0 else bias_of2 quad (Z.of_nat i) (Z.of_nat i))%Qc else (bias_of2 quad (Z.of_nat i) (Z.of_nat j) + bias_of2 quad (Z.of_nat j) (Z.of_nat i))%Qc).
Lemma coords_made quad lin : (length lin <= n)%nat -> quad <> [] -> Forall (in_coords n) quad ->
  exists q, quadratic_model lg y quad lin m = Ok (length (p_syms m), extended q) /\ qm_n q = n /\ from_coords lg n quad lin = Ok q /\
    (exists q0, qm_new (Z.of_nat n) = Ok q0 /\ Forall (qop_in n) (coord_ops lg quad lin) /\ rfold run_qop q0 (coord_ops lg quad lin) = Ok q) /\
    (forall i j, (i < n)%nat -> (j < n)%nat -> get_linear q i = Ok (qsum_of (map (one_lin i) (coord_ops lg quad lin))) /\ get_quadratic q i j = Ok (qsum_of (map (one_quad i j) (coord_ops lg quad lin)))) /\
    forall dv v, yields m dv y v -> length v = n -> (lg = true -> Forall bit v) -> yields (extended q) dv (length (p_syms m)) [coords_value quad lin (fun i => nth i v 0%Qc)].
Proof.
  intros Hl Hq Hin. destruct (@coords_ok lg n quad lin Hl Hin) as (q & b & Eq & Hqn & R & S & (q0 & E0 & Hops & Er) & Hval). exists q. split; [|split; [exact Hqn|split; [exact Eq|split; [eauto|split]]]].
  - unfold quadratic_model, bind, look. rewrite Hy. cbv beta iota. rewrite Hsh. cbn [dynamic]. destruct (Z.ltb_spec (Z.of_nat n) 0); [lia|]. destruct (Z.ltb_spec (Z.of_nat n) 1); [lia|]. destruct (Z.ltb_spec (Z.of_nat n) (Z.of_nat (length lin))); [lia|].
    destruct (Nat.eqb_spec (length quad) 0) as [H2|_]; [destruct quad; [contradiction|discriminate]|].
    rewrite existsb_no. 2:{ eapply Forall_impl; [|exact Hin]. intros [[a c] d] [H3 H4]. cbn in *. lia. } cbn [orb].
    rewrite existsb_no. 2:{ eapply Forall_impl; [|exact Hin]. intros [[a c] d] [H3 H4]. cbn in *. lia. }
    rewrite Nat2Z.id. unfold lift. rewrite Eq. cbv beta iota. cbn [rbind]. assert (Ea : qn_new q [Z.of_nat n] = Ok tt) by (apply C33_accepts; now rewrite Hqn). rewrite Ea. reflexivity.
  - intros i j Hi Hj. assert (Hops' : Forall (qop_in (Z.to_nat (Z.of_nat n))) (coord_ops lg quad lin)) by now rewrite Nat2Z.id. destruct (C34_reads _ _ _ E0 Hops') as (q' & Er' & Hr). rewrite Er in Er'. injection Er' as <-. cbv zeta in Hr. rewrite Nat2Z.id in Hr.
    destruct (Hr i j Hi Hj) as (-> & -> & _). destruct (fold_biases n no_biases i j (coord_adds lg quad lin)) as [-> ->]. cbn [no_biases b_lin b_quad]. rewrite !Qcplus_0_l. auto.
  - intros dv v Yv Hv Hb. unfold extended. eapply y_op with (ins := [v]).
    + cbn [p_syms]. rewrite nth_error_app2, Nat.sub_diag by lia. reflexivity.
    + reflexivity.
    + cbn [s_pred]. constructor; [now apply yields_app|constructor].
    + assert (Em : forall shs, meaning (KQuad lg q) shs [v] = q_fun (qm_n q) (reported q) [v]) by (intros [|]; reflexivity). cbn [s_cls]. rewrite Em. cbn [q_fun]. assert (Ev : (length v =? qm_n q)%nat = true) by (apply Nat.eqb_eq; lia).
      rewrite Ev, Hqn. do 2 f_equal. rewrite <- (Hval (fun i => nth i v 0%Qc)) by (intros L i _; apply bits_at, Hb, L). apply qvalue_same.
      * intros i Hi. cbn [reported b_lin]. now rewrite (get_lin_ok _ _ _ i R Hi).
      * intros i j Hi Hj. cbn [reported b_quad]. now rewrite (get_quad_ok _ _ _ i j R Hi Hj).
Qed.
Hypothesis Hbig : Z.of_nat n <= 2147483648.
(** The constructor up to the call of [_init_from_coords]. *)
Lemma dict_steps quad linear : quadratic_dict lg y quad linear m =
  match lin_entries n linear with Ok lin => match quad_entries quad with Ok q => quadratic_model lg y q lin m | Throw => Throw | UB => UB end | Throw => Throw | UB => UB end.
Proof.
  unfold quadratic_dict, bind, look. rewrite Hy. cbv beta iota. rewrite Hsh. cbn [dynamic]. destruct (Z.ltb_spec (Z.of_nat n) 0); [lia|]. destruct (Z.ltb_spec (Z.of_nat n) 1); [lia|]. rewrite Nat2Z.id. unfold lift.
  destruct (lin_entries n linear); try reflexivity. cbn [rbind]. destruct (quad_entries quad); reflexivity.
Qed.
Lemma within_coords quad : Forall (fun t => within n (fst (fst t)) /\ within n (snd (fst t))) quad -> Forall (in_coords n) quad /\ Forall (fun t => fits64 (fst (fst t)) /\ fits64 (snd (fst t))) quad.
Proof. intros F. split; (eapply Forall_impl; [|exact F]); intros [[u v] b] [H1 H2]; unfold within, in_coords, fits64 in *; cbn in *; lia. Qed.
Theorem dict_made quad linear : quad <> [] -> keys_within n quad linear -> exists q, quadratic_dict lg y quad linear m = Ok (length (p_syms m), extended q) /\
  has_biases q quad (fun i => bias_of linear (Z.of_nat i)) /\
  forall dv v, yields m dv y v -> length v = n -> (lg = true -> Forall bit v) -> yields (extended q) dv (length (p_syms m)) [dict_value quad linear v].
Proof.
  intros Hq [K1 K2]. destruct (within_coords K1) as [Hin H64]. destruct (@lin_entries_ok n Hbig linear (repeat 0%Qc n)) as (lin & El & Ll & Nl & Wl); [apply repeat_length|exact K2|].
  destruct (@coords_made quad lin) as (q & E & Hqn & _ & _ & Hb & Hv); [lia|exact Hq|exact Hin|]. exists q. split; [|split; [split; [exact Hqn|]|]].
  - rewrite dict_steps. unfold lin_entries. rewrite El, quad_entries_ok by exact H64. rewrite (wrapped_id Hbig K1). exact E.
  - intros i j Hi Hj. destruct (Hb i j Hi Hj) as [-> ->]. rewrite (@coord_lin lg n) by assumption. rewrite (@coord_quad lg n) by assumption. rewrite Nl. assert (N0 : nth i (repeat 0%Qc n) 0%Qc = 0%Qc) by (clear; revert i; induction n; intros [|i]; cbn; auto). rewrite N0, Qcplus_0_l. auto.
  - intros dv v Yv Lv Hbit. specialize (Hv dv v Yv Lv Hbit). replace (dict_value quad linear v) with (coords_value quad lin (fun i => nth i v 0%Qc)); [exact Hv|]. unfold coords_value, dict_value, var. f_equal. change (weighted lin (fun i => nth i v 0%Qc) = qsum_of (map (fun e => snd e * nth (Z.to_nat (fst e)) v 0)%Qc linear)). rewrite Wl, weighted_zeros. ring.
Qed.
(** A key is taken as its low 32 bits. *)
Theorem dict_wraps quad linear : Forall (fun t => fits64 (fst (fst t)) /\ fits64 (snd (fst t))) quad ->
  quadratic_dict lg y quad linear m = quadratic_dict lg y (map wrapped quad) linear m.
Proof.
  intros F. rewrite !dict_steps. rewrite quad_entries_ok by exact F. rewrite quad_entries_ok.
  - rewrite map_map. replace (map (fun x => wrapped (wrapped x)) quad) with (map wrapped quad); [reflexivity|]. apply map_ext. intros [[u v] b]. unfold wrapped. cbn [fst snd]. now rewrite !(intc_small (intc_range _)).
  - apply Forall_map, Forall_forall. intros [[u v] b] _. unfold wrapped, fits64. cbn [fst snd]. pose proof (intc_range u). pose proof (intc_range v). lia.
Qed.
Lemma coords_refused quad lin : length lin = n -> quad = [] \/ Exists (fun t => ~ in_coords n t) quad -> quadratic_model lg y quad lin m = Throw.
Proof.
  intros Hl H. unfold quadratic_model, bind, look. rewrite Hy. cbv beta iota. rewrite Hsh. cbn [dynamic]. destruct (Z.ltb_spec (Z.of_nat n) 0); [lia|]. destruct (Z.ltb_spec (Z.of_nat n) 1); [lia|]. destruct (Z.ltb_spec (Z.of_nat n) (Z.of_nat (length lin))); [lia|].
  destruct H as [->|H]; [reflexivity|]. destruct (Nat.eqb_spec (length quad) 0); [reflexivity|]. destruct (existsb _ quad) eqn:E1; [reflexivity|]. destruct (existsb (fun t => (Z.of_nat n <=? fst (fst t)) || (Z.of_nat n <=? snd (fst t))) quad) eqn:E2; [reflexivity|]. exfalso.
  apply Exists_exists in H. destruct H as (t & Ht & Hb). apply Hb. pose proof (@existsb_in _ _ _ _ E1 Ht) as A1. pose proof (@existsb_in _ _ _ _ E2 Ht) as A2. cbv beta in A1, A2. unfold in_coords. lia.
Qed.
Theorem dict_refuses quad linear : quad = [] \/ Exists (fun e => ~ within n (fst e)) linear \/ Exists (fun t => ~ in_coords n (wrapped t) \/ ~ fits64 (fst (fst t)) \/ ~ fits64 (snd (fst t))) quad ->
  quadratic_dict lg y quad linear m = Throw.
Proof.
  intros H. rewrite dict_steps. destruct (Forall_Exists_dec (fun e : Z * num => within n (fst e))) with (l := linear) as [F|B]; [intros [v b]; unfold within; cbn [fst]; destruct (Z_le_dec 0 v), (Z_lt_dec v (Z.of_nat n)); (left; lia) || (right; lia)| |unfold lin_entries; now rewrite (lin_entries_bad B) by apply repeat_length].
  destruct (@lin_entries_ok n Hbig linear (repeat 0%Qc n)) as (lin & El & Ll & _); [apply repeat_length|exact F|]. unfold lin_entries. rewrite El.
  assert (D64 : forall z, {fits64 z} + {~ fits64 z}) by (intros z; unfold fits64; destruct (Z_le_dec (- 9223372036854775808) z), (Z_lt_dec z 9223372036854775808); (left; lia) || (right; lia)).
  destruct (Forall_Exists_dec (fun t : Z * Z * num => fits64 (fst (fst t)) /\ fits64 (snd (fst t)))) with (l := quad) as [F64|B64].
  - intros t. destruct (D64 (fst (fst t))), (D64 (snd (fst t))); (left; tauto) || (right; tauto).
  - rewrite (quad_entries_ok F64). apply coords_refused; [exact Ll|]. destruct H as [->|[H|H]]; [now left| |].
    + exfalso. apply Exists_exists in H. destruct H as (e & He & Hb). rewrite Forall_forall in F. apply Hb, F, He.
    + right. apply Exists_exists in H. destruct H as (t & Ht & Hb). rewrite Forall_forall in F64. destruct (F64 t Ht). apply Exists_exists. exists (wrapped t). split; [now apply in_map|]. tauto.
  - unfold quad_entries. rewrite quad_entries_bad; [reflexivity|]. intros F64. apply Exists_exists in B64. destruct B64 as (t & Ht & Hb). rewrite Forall_forall in F64. apply Hb, F64, Ht.
Qed.
End Accept.

(** Storing and reading back. *)
Lemma rfold_get {A B} (f : nat -> res A) (g : nat -> A) (h : nat -> A -> B) : forall l acc, (forall i, In i l -> f i = Ok (g i)) ->
  rfold (fun l i => rbind (f i) (fun b => Ok (l ++ [h i b]))) acc l = Ok (acc ++ map (fun i => h i (g i)) l).
Proof. induction l as [|i l IH]; intros acc H; cbn [rfold map]; [now rewrite app_nil_r|]. rewrite (H i (or_introl eq_refl)). cbn [rbind]. rewrite IH by (intros; apply H; now right). now rewrite <- app_assoc. Qed.
Definition squares (n : nat) (b : biases) : list (Z * Z * num) := map (fun i => (Z.of_nat i, Z.of_nat i, b_quad b i i)) (seq 0 n).
Definition pairs (q : qmodel) : list (Z * Z * num) := map (fun t => (Z.of_nat (fst (fst t)), Z.of_nat (snd (fst t)), snd t)) (get_quadratics q).
Lemma stored_ok q n b : rep q n b -> Z.of_nat n <= 2147483648 -> stored_quad q = Ok (squares n b ++ pairs q) /\ stored_lin q = Ok (map (b_lin b) (seq 0 n)).
Proof.
  intros R Hb. assert (Hqn : qm_n q = n) by apply (rp_n _ _ _ R). unfold stored_quad, stored_lin. rewrite Hqn. split.
  - rewrite (rfold_get (fun i => get_quadratic q i i) (fun i => b_quad b i i) (fun i b => (intc (Z.of_nat i), intc (Z.of_nat i), b))).
    + cbn [app rbind]. f_equal. f_equal; apply map_ext_in.
      * intros i Hi. apply in_seq in Hi. rewrite intc_small by lia. reflexivity.
      * intros t Ht. pose proof (export_in q n b t R Ht). rewrite !intc_small by lia. reflexivity.
    + intros i Hi. apply in_seq in Hi. apply (get_quad_ok _ _ _ i i R); lia.
  - rewrite (rfold_get (get_linear q) (b_lin b) (fun _ b => b)); [reflexivity|]. intros i Hi. apply in_seq in Hi. apply (get_lin_ok _ _ _ i R); lia.
Qed.
Lemma sum_at n i f : (i < n)%nat -> qsum_of (map (fun k => if (i =? k)%nat then f k else 0%Qc) (seq 0 n)) = f i.
Proof.
  intros Hi. pose proof (sum_one (map f (seq 0 n)) i) as S. rewrite map_length, seq_length in S.
  rewrite (nth_indep _ _ (f 0%nat)) in S by (now rewrite map_length, seq_length). rewrite map_nth, seq_nth in S by exact Hi. cbn [Nat.add] in S. rewrite <- S. f_equal. apply map_ext_in. intros k Hk. apply in_seq in Hk.
  destruct (i =? k)%nat; [|reflexivity]. rewrite (nth_indep _ _ (f 0%nat)) by (rewrite map_length, seq_length; lia). rewrite map_nth, seq_nth by lia. reflexivity.
Qed.
Lemma pairs_sum i j q : qsum_of (map (fun t => one_quad i j (AddQuad (fst (fst t)) (snd (fst t)) (snd t))) (get_quadratics q)) = tsum (get_quadratics q) i j.
Proof. generalize (get_quadratics q). induction l as [|t l IH]; [reflexivity|]. cbn [map qsum_of tsum]. rewrite IH. reflexivity. Qed.
Section Stored.
Variable (lg : bool) (q : qmodel) (n : nat) (b : biases).
Hypothesis R : rep q n b.
Hypothesis S : forall i j, b_quad b i j = b_quad b j i.
Hypothesis L0 : lg = true -> forall i, (i < n)%nat -> b_quad b i i = 0%Qc.
Lemma stored_in : Forall (in_coords n) (squares n b ++ pairs q).
Proof.
  apply Forall_app. split; apply Forall_map, Forall_forall.
  - intros i Hi. apply in_seq in Hi. unfold in_coords. cbn. lia.
  - intros t Ht. pose proof (export_in q n b t R Ht). unfold in_coords. cbn. lia.
Qed.
Lemma ops_pairs : map (coord_op lg) (pairs q) = map (fun t => AddQuad (fst (fst t)) (snd (fst t)) (snd t)) (get_quadratics q).
Proof. unfold pairs. rewrite map_map. apply map_ext_in. intros t Ht. pose proof (export_in q n b t R Ht). cbn [coord_op fst snd]. destruct (Z.eqb_spec (Z.of_nat (fst (fst t))) (Z.of_nat (snd (fst t)))); [lia|]. rewrite andb_false_r. cbn [fst snd]. now rewrite !Nat2Z.id. Qed.
Lemma stored_sums i j : (i < n)%nat -> (j < n)%nat ->
  qsum_of (map (one_lin i) (coord_ops lg (squares n b ++ pairs q) (map (b_lin b) (seq 0 n)))) = b_lin b i /\
  qsum_of (map (one_quad i j) (coord_ops lg (squares n b ++ pairs q) (map (b_lin b) (seq 0 n)))) = b_quad b i j.
Proof.
  intros Hi Hj. unfold coord_ops. rewrite !map_app, !qsum_app, ops_pairs. split.
  - rewrite map_map. cbn [one_lin]. rewrite sum_one. rewrite (nth_indep _ _ (b_lin b 0%nat)) by (now rewrite map_length, seq_length). rewrite map_nth, seq_nth by exact Hi. cbn [Nat.add].
    rewrite (sum_zero (one_lin i) (map _ (get_quadratics q))) by (intros o Ho; apply in_map_iff in Ho; destruct Ho as (t & <- & _); reflexivity).
    rewrite sum_zero; [ring|]. intros o Ho. apply in_map_iff in Ho. destruct Ho as (t & <- & Ht). apply in_map_iff in Ht. destruct Ht as (k & <- & Hk). apply in_seq in Hk. cbn [coord_op fst snd]. rewrite Z.eqb_refl, andb_true_r. destruct lg; [|reflexivity]. cbn [one_lin]. rewrite L0 by (reflexivity || lia). now destruct (_ =? _)%nat.
  - rewrite (sum_zero (one_quad i j) (map _ (seq 0 _))) by (intros o Ho; apply in_map_iff in Ho; destruct Ho as (t & <- & _); reflexivity). rewrite (map_map _ (one_quad i j) (get_quadratics q)), pairs_sum.
    unfold squares. rewrite !map_map. assert (T : forall i j, (i < n)%nat -> (j < n)%nat -> i = j -> tsum (get_quadratics q) i j = 0%Qc).
    { clear i j Hi Hj. intros i j Hi Hj <-. rewrite <- pairs_sum. apply sum_zero. intros t Ht. pose proof (export_in q n b t R Ht). cbn [one_quad]. unfold same_pair. destruct (Nat.eqb_spec (fst (fst t)) i), (Nat.eqb_spec (snd (fst t)) i); cbn [andb orb]; try reflexivity; lia. }
    assert (Q : qsum_of (map (fun x => one_quad i j (coord_op lg (Z.of_nat x, Z.of_nat x, b_quad b x x))) (seq 0 n)) = if (i =? j)%nat then b_quad b i i else 0%Qc).
    { destruct (Nat.eqb_spec i j) as [<-|Hne].
      - rewrite <- (sum_at (fun k => b_quad b k k) Hi). f_equal. apply map_ext_in. intros k Hk. apply in_seq in Hk. cbn [coord_op fst snd]. rewrite Z.eqb_refl, andb_true_r, Nat2Z.id. destruct lg; cbn [one_quad].
        + rewrite L0 by (reflexivity || lia). now destruct (_ =? _)%nat.
        + unfold same_pair. rewrite (Nat.eqb_sym i k). now destruct (k =? i)%nat.
      - apply sum_zero. intros k _. cbn [coord_op fst snd]. rewrite Z.eqb_refl, andb_true_r, Nat2Z.id. destruct lg; cbn [one_quad]; [reflexivity|]. unfold same_pair. destruct (Nat.eqb_spec k i), (Nat.eqb_spec k j); cbn [andb orb]; try reflexivity; lia. }
    rewrite Q. destruct (Nat.eqb_spec i j) as [<-|Hne]; [rewrite T by auto; ring|]. destruct (Nat.lt_ge_cases i j).
    + rewrite (rows_sum q n b) by auto. ring.
    + assert (Y : tsum (get_quadratics q) i j = tsum (get_quadratics q) j i).
      { generalize (get_quadratics q). induction l as [|t l IH]; [reflexivity|]. cbn [tsum]. rewrite IH. unfold same_pair. now rewrite orb_comm. }
      rewrite Y, (rows_sum q n b) by (auto; lia). rewrite S. ring.
Qed.
End Stored.
(** A model with the same biases means the same. *)
Lemma same_meaning lg q q' n : qm_n q = n -> qm_n q' = n -> (forall i j, (i < n)%nat -> (j < n)%nat -> get_linear q' i = get_linear q i /\ get_quadratic q' i j = get_quadratic q i j) ->
  forall shs ins, meaning (KQuad lg q') shs ins = meaning (KQuad lg q) shs ins.
Proof.
  intros E E' H shs ins. assert (Em : forall q, meaning (KQuad lg q) shs ins = q_fun (qm_n q) (reported q) ins) by (intros; destruct shs, ins as [|? [|]]; reflexivity). rewrite !Em, E, E'. unfold q_fun. destruct ins as [|x [|]]; try reflexivity. destruct (length x =? n)%nat; [|reflexivity]. do 2 f_equal. apply qvalue_same.
  - intros i Hi. cbn [reported b_lin]. now destruct (H i i Hi Hi) as [-> _].
  - intros i j Hi Hj. cbn [reported b_quad]. now destruct (H i j Hi Hj) as [_ ->].
Qed.
Theorem reloaded_ok lg m m2 y y2 s s2 n quad lin z m1 : nth_error (p_syms m) y = Some s -> s_shape s = [Z.of_nat n] -> nth_error (p_syms m2) y2 = Some s2 -> s_shape s2 = [Z.of_nat n] -> (1 <= n)%nat -> Z.of_nat n <= 2147483648 ->
  (length lin <= n)%nat -> quad <> [] -> Forall (in_coords n) quad -> quadratic_model lg y quad lin m = Ok (z, m1) ->
  exists q q', m1 = extended lg m y q /\ reloaded lg y2 q m2 = Ok (length (p_syms m2), extended lg m2 y2 q') /\ qm_n q' = qm_n q /\
    (forall i j, (i < n)%nat -> (j < n)%nat -> get_linear q' i = get_linear q i /\ get_quadratic q' i j = get_quadratic q i j) /\ forall shs ins, meaning (KQuad lg q') shs ins = meaning (KQuad lg q) shs ins.
Proof.
  intros Hy Hs Hy2 Hs2 Hn Hb Hl Hq Hin E. destruct (@coords_made lg m y s n Hy Hs Hn quad lin Hl Hq Hin) as (q & Eq & Hqn & _ & (q0 & E0 & Hops & Er) & Hget & _). rewrite Eq in E. injection E as _ <-.
  destruct (new_rep _ _ E0) as [R0 _]. rewrite Nat2Z.id in R0. destruct (run_qops_ok (coord_ops lg quad lin) q0 n no_biases R0 Hops) as (q1 & Er1 & R). rewrite Er in Er1. injection Er1 as <-.
  pose proof (spec_sym n (coord_ops lg quad lin) no_biases (fun _ _ => eq_refl)) as S. set (b := fold_left (spec_qop n) (coord_ops lg quad lin) no_biases) in *.
  assert (L0 : lg = true -> forall i, (i < n)%nat -> b_quad b i i = 0%Qc).
  { intros HL i Hi. destruct (Hget i i Hi Hi) as [_ G]. rewrite (get_quad_ok _ _ _ i i R Hi Hi) in G. injection G as ->. rewrite (@coord_quad lg n) by assumption. now rewrite Nat.eqb_refl, HL. }
  destruct (stored_ok R Hb) as [Sq Sl]. assert (Hl' : (length (map (b_lin b) (seq 0 n)) <= n)%nat) by now rewrite map_length, seq_length.
  assert (Hq' : squares n b ++ pairs q <> []) by (unfold squares; destruct n; [lia|discriminate]).
  destruct (@coords_made lg m2 y2 s2 n Hy2 Hs2 Hn _ _ Hl' Hq' (@stored_in lg q n b R S L0)) as (q' & Eq' & Hqn' & _ & _ & Hget' & _). exists q, q'. split; [reflexivity|].
  assert (G : forall i j, (i < n)%nat -> (j < n)%nat -> get_linear q' i = get_linear q i /\ get_quadratic q' i j = get_quadratic q i j).
  { intros i j Hi Hj. destruct (Hget' i j Hi Hj) as [-> ->]. destruct (@stored_sums lg q n b R S L0 i j Hi Hj) as [-> ->]. rewrite (get_lin_ok _ _ _ i R Hi), (get_quad_ok _ _ _ i j R Hi Hj). auto. }
  split; [|split; [congruence|split; [exact G|now apply (@same_meaning lg q q' n)]]].
  unfold reloaded, bind, lift. rewrite Sq, Sl. exact Eq'.
Qed.
Lemma Forall2_in_l {A B} (P : A -> B -> Prop) l l' a : Forall2 P l l' -> In a l -> exists b, In b l' /\ P a b.
Proof. induction 1 as [|x y l l' H _ IH]; intros I; [contradiction I|]. destruct I as [->|I]; [exists y; cbn; auto|]. destruct (IH I) as (b & Hb & Hp). exists b. cbn. auto. Qed.
(** A dictionary that is accepted makes a model of coordinates in range. *)
Theorem dict_file lg m m2 y y2 s s2 n quad linear z m1 : nth_error (p_syms m) y = Some s -> s_shape s = [Z.of_nat n] -> nth_error (p_syms m2) y2 = Some s2 -> s_shape s2 = [Z.of_nat n] -> (1 <= n)%nat -> Z.of_nat n <= 2147483648 ->
  quadratic_dict lg y quad linear m = Ok (z, m1) ->
  exists q q' m', nth_error (p_syms m1) z = Some (Sym (KQuad lg q) [y] [] true) /\
    reloaded lg y2 q m2 = Ok (length (p_syms m2), m') /\ nth_error (p_syms m') (length (p_syms m2)) = Some (Sym (KQuad lg q') [y2] [] true) /\
    (forall i j, sym_linear q' i = sym_linear q i /\ sym_quadratic q' i j = sym_quadratic q i j) /\ forall shs ins, meaning (KQuad lg q') shs ins = meaning (KQuad lg q) shs ins.
Proof.
  intros Hy Hs Hy2 Hs2 Hn Hb E. rewrite (@dict_steps lg m y s n Hy Hs Hn) in E. destruct (lin_entries n linear) as [lin| |] eqn:El; try discriminate. destruct (quad_entries quad) as [qd| |] eqn:Eq; try discriminate.
  assert (Ll : length lin = n).
  { destruct (Forall_Exists_dec (fun e : Z * num => within n (fst e))) with (l := linear) as [F|B].
    - intros [v b]. unfold within. cbn [fst]. destruct (Z_le_dec 0 v), (Z_lt_dec v (Z.of_nat n)); (left; lia) || (right; lia).
    - destruct (@lin_entries_ok n Hb linear (repeat 0%Qc n)) as (lin' & El' & Ll & _); [apply repeat_length|exact F|]. unfold lin_entries in El. rewrite El in El'. injection El' as <-. exact Ll.
    - unfold lin_entries in El. rewrite (lin_entries_bad B) in El by apply repeat_length. discriminate. }
  destruct (Forall_Exists_dec (in_coords n)) with (l := qd) as [F|B].
  { intros [[u v] b]. unfold in_coords. cbn [fst snd]. destruct (Z_le_dec 0 u), (Z_lt_dec u (Z.of_nat n)), (Z_le_dec 0 v), (Z_lt_dec v (Z.of_nat n)); (left; lia) || (right; lia). }
  2:{ rewrite (@coords_refused lg m y s n Hy Hs Hn qd lin Ll) in E by auto. discriminate. }
  assert (Hq : qd <> []) by (intros ->; rewrite (@coords_refused lg m y s n Hy Hs Hn [] lin Ll) in E by auto; discriminate).
  assert (Ez : z = length (p_syms m)) by (destruct (@coords_made lg m y s n Hy Hs Hn qd lin) as (q & Eq' & _); [lia|exact Hq|exact F|]; rewrite Eq' in E; injection E as <- _; reflexivity).
  destruct (@reloaded_ok lg m m2 y y2 s s2 n qd lin z m1 Hy Hs Hy2 Hs2 Hn Hb) as (q & q' & -> & Er & En & G & M); [lia|exact Hq|exact F|exact E|]. exists q, q', (extended lg m2 y2 q').
  assert (Hqn : qm_n q = n) by (destruct (@coords_made lg m y s n Hy Hs Hn qd lin) as (q1 & Eq' & Hqn & _); [lia|exact Hq|exact F|]; rewrite Eq' in E; injection E as _ E; apply app_inv_head in E; injection E as ->; exact Hqn).
  subst z. repeat split; try (unfold extended; cbn [p_syms]; now rewrite nth_error_app2, Nat.sub_diag by lia); [exact Er| | |exact M].
  - unfold sym_linear. rewrite En, Hqn. destruct (Z.leb_spec 0 i), (Z.ltb_spec i (Z.of_nat n)); cbn [andb]; try reflexivity. apply (G (Z.to_nat i) (Z.to_nat i)); lia.
  - unfold sym_quadratic. rewrite En, Hqn. destruct (Z.leb_spec 0 i), (Z.ltb_spec i (Z.of_nat n)), (Z.leb_spec 0 j), (Z.ltb_spec j (Z.of_nat n)); cbn [andb]; try reflexivity. apply (G (Z.to_nat i) (Z.to_nat j)); lia.
Qed.
