From Verif Require Import Base SliceModel ShapeModel ShapeSpec ShapeProofs ShapeProps StateDataModel StateDataSpec StateDataProofs Replay
  NodeSpec NodeLib BinaryModel NodeShape BinaryProofs PartialProofs ConcatModel ConcatSpec.

(** * Arithmetic of positions *)
Section Pos.
Variables A D B : nat.
Definition pos (d S k : nat) : nat := k / (d * B) * (D * B) + (S * B + k mod (d * B)).
Definition col (q : nat) : nat := (q mod (D * B)) / B.

Lemma pos_parts d S k : k < A * d * B -> S + d <= D ->
  0 < B /\ 0 < d /\ k / (d * B) < A /\ k mod (d * B) < d * B /\ S * B + k mod (d * B) < D * B.
Proof.
  intros Hk HS. assert (0 < B) by nia. assert (0 < d) by nia.
  assert (k / (d * B) < A) by (apply Nat.div_lt_upper_bound; nia).
  pose proof (Nat.mod_upper_bound k (d * B) ltac:(nia)). repeat split; auto; nia.
Qed.
Lemma pos_lt d S k : k < A * d * B -> S + d <= D -> pos d S k < A * D * B.
Proof. intros Hk HS. destruct (pos_parts d S k Hk HS) as (b & c & e & f & g). unfold pos. nia. Qed.
Lemma pos_dm d S k : k < A * d * B -> S + d <= D ->
  pos d S k / (D * B) = k / (d * B) /\ pos d S k mod (D * B) = S * B + k mod (d * B).
Proof.
  intros Hk HS. destruct (pos_parts d S k Hk HS) as (b & c & e & f & g). unfold pos.
  rewrite Nat.add_comm at 1. split.
  - rewrite Nat.div_add by nia. rewrite Nat.div_small by exact g. reflexivity.
  - rewrite Nat.add_comm, Nat.mod_add by nia. now apply Nat.mod_small.
Qed.
Lemma pos_col d S k : k < A * d * B -> S + d <= D -> S <= col (pos d S k) < S + d.
Proof.
  intros Hk HS. destruct (pos_parts d S k Hk HS) as (b & c & e & f & g). unfold col.
  destruct (pos_dm d S k Hk HS) as [_ ->]. rewrite Nat.div_add_l by lia.
  assert (k mod (d * B) / B < d) by (apply Nat.div_lt_upper_bound; [lia|]; rewrite (Nat.mul_comm B d); exact f). clear - H; generalize dependent (k mod (d * B) / B); intros; lia.
Qed.
Lemma pos_inj d S k k' : k < A * d * B -> k' < A * d * B -> S + d <= D -> pos d S k = pos d S k' -> k = k'.
Proof.
  intros Hk Hk' HS E. destruct (pos_parts d S k Hk HS) as (b & c & _).
  destruct (pos_dm d S k Hk HS) as [Q R]. destruct (pos_dm d S k' Hk' HS) as [Q' R']. rewrite E in Q, R.
  rewrite (Nat.div_mod k (d * B)), (Nat.div_mod k' (d * B)) by nia. nia.
Qed.
(** Every position belongs to the operand its column points to. *)
Lemma pos_cover d S q : q < A * D * B -> S <= col q < S + d -> S + d <= D ->
  exists k, k < A * d * B /\ pos d S k = q.
Proof.
  intros Hq Hc HS. unfold col in Hc. assert (0 < B) by nia. assert (0 < D) by nia. assert (0 < d) by lia.
  pose proof (Nat.div_mod q (D * B) ltac:(nia)) as E. pose proof (Nat.mod_upper_bound q (D * B) ltac:(nia)) as U.
  set (r := q mod (D * B)) in *. set (a := q / (D * B)) in *.
  assert (a < A) by (apply Nat.div_lt_upper_bound; nia).
  pose proof (Nat.div_mod r B ltac:(lia)) as Er. pose proof (Nat.mod_upper_bound r B ltac:(lia)) as Ur.
  set (c := r / B) in *. set (b := r mod B) in *.
  assert (X : (c - S) * B + b < d * B) by nia.
  exists (a * (d * B) + ((c - S) * B + b)).
  assert (Q1 : (a * (d * B) + ((c - S) * B + b)) / (d * B) = a)
    by (rewrite Nat.div_add_l, Nat.div_small; [lia|exact X|nia]).
  assert (Q2 : (a * (d * B) + ((c - S) * B + b)) mod (d * B) = (c - S) * B + b)
    by (rewrite Nat.add_comm, Nat.mod_add, Nat.mod_small; [lia|exact X|nia]).
  split; [nia|]. unfold pos. rewrite Q1, Q2.
  assert (S * B + ((c - S) * B + b) = r); [|lia].
  rewrite Er. assert ((c - S) * B + S * B = c * B) by (rewrite <- Nat.mul_add_distr_r; f_equal; lia). lia.
Qed.
End Pos.

(** * The strided view *)
Lemma iter_shift {T} (f : T -> T) k x : Nat.iter k f (f x) = Nat.iter (S k) f x.
Proof. induction k as [|k IH]; [reflexivity|]. change (f (Nat.iter k f (f x)) = f (Nat.iter (S k) f x)). now rewrite IH. Qed.

Lemma offset_rank out : forall idx, length out = length idx -> offset (shape_to_strides out) idx = (8 * rank out idx)%Z.
Proof.
  induction out as [|d t IH]; intros [|i idx] L; try discriminate L; [reflexivity|].
  rewrite strides_cons, rank_cons by (cbn in L; lia). cbn [offset]. rewrite IH by (cbn in L; lia). lia.
Qed.

Lemma strides_len s : length (shape_to_strides s) = length s.
Proof. induction s as [|d s IH]; [reflexivity|]. rewrite strides_cons. cbn [length]. now rewrite IH. Qed.
Lemma strides_8 s : Forall (fun st => (8 | st)%Z) (shape_to_strides s).
Proof.
  induction s as [|d s IH]; [constructor|]. rewrite strides_cons. constructor; [|exact IH]. exists (prod s). lia.
Qed.

Section View.
Variables (s1 s2 : list Z) (A B D : nat).
Hypothesis P2 : Forall (fun d => (0 < d)%Z) s2.
Hypothesis PA : prod s1 = Z.of_nat A.
Hypothesis PB : prod s2 = Z.of_nat B.
Hypothesis P1 : Forall (fun d => (0 < d)%Z) (tl s1).
Definition mk (d : nat) : list Z := s1 ++ Z.of_nat d :: s2.

Lemma view_ok d S k : k < A * d * B -> S + d <= D ->
  let v := conc_view (mk D) (mk d) (Z.of_nat (S * B)) in
  it_add v (Z.of_nat k) = Some (Nat.iter k it_inc v) /\
  it_ptr (Nat.iter k it_inc v) = Z.of_nat (pos D B d S k).
Proof.
  intros Hk HS. destruct (pos_parts A D B d S k Hk HS) as (HB & Hd & Ha & Hm & Hr). cbv zeta.
  assert (St : strided (mk d) (shape_to_strides (mk D))).
  { split; [unfold mk; intros X; apply app_eq_nil in X; destruct X; discriminate|].
    split; [rewrite strides_len; unfold mk; rewrite !app_length; reflexivity|].
    split; [|apply strides_8]. unfold mk. destruct s1 as [|e t]; cbn [app tl]; [exact P2|].
    apply Forall_app. split; [exact P1|]. constructor; [lia|exact P2]. }
  destruct (C24_forward (mk d) (shape_to_strides (mk D)) (Z.of_nat (S * B)) k St) as [E (idx & R & N & O)].
  split; [exact E|]. fold (conc_view (mk D) (mk d) (Z.of_nat (S * B))) in O.
  set (p := it_ptr (Nat.iter k it_inc (conc_view (mk D) (mk d) (Z.of_nat (S * B))))) in *. clearbody p. clear E St.
  destruct R as [L R].
  assert (Lm : length (mk D) = length idx) by (rewrite <- L; unfold mk; rewrite !app_length; reflexivity).
  rewrite offset_rank in O by exact Lm.
  assert (Sp : exists i1 j i2, idx = i1 ++ j :: i2 /\ length s1 = length i1 /\ length s2 = length i2).
  { exists (firstn (length s1) idx). assert (X : length s1 < length idx) by (rewrite <- L; unfold mk; rewrite app_length; cbn [length]; lia).
    destruct (skipn (length s1) idx) as [|j i2] eqn:F.
    { pose proof (f_equal (@length _) F) as F'. rewrite skipn_length in F'. cbn in F'. lia. }
    exists j, i2. split; [rewrite <- F; symmetry; apply firstn_skipn|]. split; [rewrite firstn_length; lia|].
    pose proof (f_equal (@length _) F) as F'. rewrite skipn_length, <- L in F'. unfold mk in F'.
    rewrite app_length in F'. cbn [length] in F'. lia. }
  destruct Sp as (i1 & j & i2 & -> & L1 & L2). unfold mk in N, O, R.
  rewrite rank_app in N, O by (cbn [length]; lia). rewrite rank_cons in N, O by lia. cbn [prod] in N, O.
  rewrite PB in N, O.
  (* bounds of the part from the axis on *)
  assert (Bd : (0 <= j * Z.of_nat B + rank s2 i2 < Z.of_nat d * Z.of_nat B)%Z).
  { destruct s1 as [|e t], i1 as [|i i1]; try discriminate L1.
    - change (rank [] []) with 0%Z in N. cbn [prod] in PA. assert (A = 1) by lia. subst A. nia.
    - cbn [app tl] in R. unfold in_range in R.
      apply Forall2_app_inv_l in R. destruct R as (a & b & Ra & Rb & E).
      assert (length a = length i1) by (apply in_range_len in Ra; cbn in L1; lia).
      assert (a = i1 /\ b = j :: i2) as [-> ->].
      { clear - E H. revert i1 E H. induction a as [|x a IH]; intros [|y i1] E H; try discriminate H; cbn [app] in E.
        - auto. - injection E as -> E. destruct (IH i1 E ltac:(cbn in H; lia)) as [-> ->]. auto. }
      inversion Rb as [|? ? ? ? Hj R2]; subst. pose proof (rank_bounds _ _ R2). nia. }
  unfold pos.
  assert (Q : (Z.of_nat (k / (d * B)) = rank s1 i1)%Z).
  { rewrite Nat2Z.inj_div, Nat2Z.inj_mul. symmetry. eapply Z.div_unique_pos; [exact Bd|]. lia. }
  assert (M : (Z.of_nat (k mod (d * B)) = j * Z.of_nat B + rank s2 i2)%Z).
  { rewrite Nat2Z.inj_mod, Nat2Z.inj_mul. symmetry.
    apply (Z.mod_unique_pos _ _ (rank s1 i1)); [exact Bd|]. rewrite <- N. lia. }
  rewrite !Nat2Z.inj_add, !Nat2Z.inj_mul, Q, M. lia.
Qed.
End View.

(** * Copying and updating *)
Section Loops.
Context {V : Type}.

Lemma copy_ok (l : list V) : forall it buf (p : nat -> nat),
  (forall k, k < length l -> it_ptr (Nat.iter k it_inc it) = Z.of_nat (p k) /\ p k < length buf) ->
  (forall k k', k < length l -> k' < length l -> p k = p k' -> k = k') ->
  exists buf', conc_copy l it buf = Ok buf' /\ length buf' = length buf /\
    (forall k, k < length l -> nth_error buf' (p k) = nth_error l k) /\
    (forall q, (forall k, k < length l -> p k <> q) -> nth_error buf' q = nth_error buf q).
Proof.
  induction l as [|x t IH]; intros it buf p Hp Hi.
  - exists buf. cbn [conc_copy length]. repeat split; auto. intros k Hk. inversion Hk.
  - cbn [conc_copy]. destruct (Hp 0 ltac:(cbn; lia)) as [E0 B0]. cbn [Nat.iter nat_rect] in E0.
    rewrite E0. rewrite (proj2 (Z.leb_le 0 (Z.of_nat (p 0)))) by lia.
    rewrite (proj2 (Z.ltb_lt (Z.of_nat (p 0)) (Z.of_nat (length buf)))) by lia. cbn [andb]. rewrite Nat2Z.id.
    destruct (IH (it_inc it) (lset (p 0) x buf) (fun k => p (S k))) as (buf' & E & L & G & O).
    + intros k Hk. rewrite iter_shift, lset_length. apply Hp. cbn [length]. lia.
    + intros k k' Hk Hk' E. assert (S k = S k') by (apply Hi; cbn [length]; auto; lia). lia.
    + exists buf'. split; [exact E|]. split; [now rewrite L, lset_length|]. split.
      * intros [|k] Hk.
        -- rewrite O; [cbn [nth_error]; rewrite nth_error_lset, Nat.eqb_refl; cbn [andb];
             rewrite (proj2 (Nat.ltb_lt _ _) B0); reflexivity|].
           intros k Hk' Ek. assert (S k = 0) by (apply Hi; cbn [length]; auto; lia). lia.
        -- cbn [nth_error]. apply G. cbn [length] in Hk. lia.
      * intros q Hq. rewrite O by (intros k Hk; apply Hq; cbn [length]; lia).
        rewrite nth_error_lset. destruct (Nat.eqb_spec (p 0) q) as [Eq|]; [|reflexivity].
        exfalso. apply (Hq 0); [cbn [length]; lia|exact Eq].
Qed.

Variables A D B : nat.
Notation pos := (pos D B).
Definition good (d S : nat) (l buf : list V) : Prop :=
  length l = A * d * B /\ forall k, k < length l -> nth_error buf (pos d S k) = nth_error l k.
Fixpoint goods (S : nat) (ds : list nat) (ls : list (list V)) (buf : list V) : Prop :=
  match ds, ls with
  | d :: ds', l :: ls' => good d S l buf /\ goods (S + d) ds' ls' buf
  | [], [] => True
  | _, _ => False
  end.
Notation nsum := (fold_right Nat.add 0).

Lemma good_same d S l buf buf' : S + d <= D -> good d S l buf ->
  (forall q, S <= col D B q < S + d -> nth_error buf' q = nth_error buf q) -> good d S l buf'.
Proof.
  intros HS [L G] H. split; [exact L|]. intros k Hk. rewrite H; [now apply G|]. apply (pos_col A); auto. lia.
Qed.
Lemma goods_same ds : forall S ls buf buf', S + nsum ds <= D -> goods S ds ls buf ->
  (forall q, S <= col D B q -> nth_error buf' q = nth_error buf q) -> goods S ds ls buf'.
Proof.
  induction ds as [|d ds IH]; intros S [|l ls] buf buf' HS G H; cbn [goods fold_right] in *; auto.
  destruct G as [G1 G2]. split.
  - apply (good_same d S l buf); auto; [lia|]. intros q Hq. apply H. lia.
  - apply (IH _ _ buf); auto; [lia|]. intros q Hq. apply H. lia.
Qed.
Lemma goods_nth ds : forall S ls buf i d l, goods S ds ls buf -> nth_error ds i = Some d -> nth_error ls i = Some l ->
  good d (S + nsum (firstn i ds)) l buf.
Proof.
  induction ds as [|e ds IH]; intros S [|m ls] buf [|i] d l G Ed El; cbn [nth_error goods firstn fold_right] in *;
    try discriminate; try contradiction.
  - injection Ed as ->. injection El as ->. destruct G as [G _]. now rewrite Nat.add_0_r.
  - destruct G as [_ G]. pose proof (IH _ _ _ _ _ _ G Ed El) as R. now rewrite Nat.add_assoc.
Qed.
Lemma nth_goods ds : forall S ls buf, length ds = length ls ->
  (forall i d l, nth_error ds i = Some d -> nth_error ls i = Some l -> good d (S + nsum (firstn i ds)) l buf) ->
  goods S ds ls buf.
Proof.
  induction ds as [|e ds IH]; intros S [|m ls] buf L H; try discriminate L; cbn [goods]; auto. split.
  - specialize (H 0 e m eq_refl eq_refl). cbn [firstn fold_right] in H. now rewrite Nat.add_0_r in H.
  - apply IH; [cbn in L; lia|]. intros i d l Ed El. specialize (H (Datatypes.S i) d l Ed El).
    cbn [firstn fold_right] in H. now rewrite <- Nat.add_assoc.
Qed.

(** The contents are determined. *)
Lemma goods_unique ds ls buf buf' : nsum ds = D -> length buf = A * D * B -> length buf' = A * D * B ->
  goods 0 ds ls buf -> goods 0 ds ls buf' -> buf = buf'.
Proof.
  intros HD L L' G G'.
  assert (X : forall ds S ls, goods S ds ls buf -> goods S ds ls buf' -> S + nsum ds <= D ->
     forall q, q < A * D * B -> S <= col D B q < S + nsum ds -> nth_error buf q = nth_error buf' q).
  { clear ds ls HD G G'. induction ds as [|d ds IH]; intros S [|l ls] G G' HS q Hq Hc; cbn [goods fold_right] in *;
      try contradiction; try lia.
    destruct G as [G1 G2], G' as [G1' G2']. destruct (Nat.lt_ge_cases (col D B q) (S + d)) as [C|C].
    - destruct (pos_cover A D B d S q Hq ltac:(lia) ltac:(lia)) as (k & Hk & <-).
      destruct G1 as [Ll G1]. destruct G1' as [_ G1']. rewrite G1, G1' by lia. reflexivity.
    - apply (IH (S + d) ls); auto; lia. }
  apply nth_error_ext. intros q. destruct (Nat.lt_ge_cases q (A * D * B)) as [Hq|Hq].
  - apply (X ds 0 ls); auto; [lia|]. rewrite HD. cbn [Nat.add]. split; [lia|]. unfold col.
    assert (0 < B) by nia. assert (0 < D) by nia. apply Nat.div_lt_upper_bound; [lia|].
    pose proof (Nat.mod_upper_bound q (D * B) ltac:(nia)). nia.
  - rewrite (proj2 (nth_error_None _ _)) by lia. symmetry. apply nth_error_None. lia.
Qed.
End Loops.

Notation nsum := (fold_right Nat.add 0).

Lemma rewrite_app {V} (l l1 : list V) us1 us2 : rewrite_with l us1 = Some l1 ->
  rewrite_with l (us1 ++ us2) = rewrite_with l1 us2.
Proof.
  revert l. induction us1 as [|u us IH]; intros l H; cbn [rewrite_with app] in *; [congruence|].
  destruct (uval u); [|discriminate]. destruct (uidx u <? length l); [|discriminate]. now apply IH.
Qed.

Section Run.
Context {V : Type}.
Variable veqb : V -> V -> bool.
Hypothesis spec : forall x y, reflect (x = y) (veqb x y).
Variable dbg : bool.
Variables (s1 s2 : list Z) (A B D : nat).
Hypothesis P2 : Forall (fun d => (0 < d)%Z) s2.
Hypothesis PA : prod s1 = Z.of_nat A.
Hypothesis PB : prod s2 = Z.of_nat B.
Hypothesis P1 : Forall (fun d => (0 < d)%Z) (tl s1).
Notation mk := (mk s1 s2).
Notation good := (good A D B).
Notation goods := (goods A D B).

Fixpoint starts_ok (S : nat) (ds : list nat) (sts : list Z) : Prop :=
  match ds, sts with
  | d :: ds', st :: sts' => (A * d * B = 0 \/ st = Z.of_nat (S * B)) /\ starts_ok (S + d) ds' sts'
  | [], [] => True
  | _, _ => False
  end.

Lemma init_loop ds : forall S sts (pins : list (pin V)) buf, S + nsum ds <= D -> starts_ok S ds sts ->
  Forall2 (fun d p => length (pview p) = A * d * B) ds pins -> length buf = A * D * B ->
  exists buf', rfold (fun buf p => conc_copy (pview (snd p)) (conc_view (mk D) (snd (fst p)) (fst (fst p))) buf) buf
      (combine (combine sts (map mk ds)) pins) = Ok buf' /\
    length buf' = A * D * B /\ goods S ds (map (@pview V) pins) buf' /\
    forall q, col D B q < S -> nth_error buf' q = nth_error buf q.
Proof.
  clear spec veqb dbg. induction ds as [|d ds IH]; intros S [|st sts] pins buf HS SO F L; inversion F as [|? p ? ps Lp F']; subst;
    cbn [starts_ok] in SO; try contradiction.
  - exists buf. cbn. repeat split; auto.
  - cbn [map combine rfold fst snd]. destruct SO as [Hst SO]. cbn [fold_right] in HS.
    destruct (copy_ok (pview p) (conc_view (mk D) (mk d) st) buf (pos D B d S)) as (b1 & E1 & L1 & G1 & O1).
    { intros k Hk. destruct Hst as [Z| ->]; [lia|]. split; [|rewrite L; apply (pos_lt A); lia].
      apply (view_ok s1 s2 A B D P2 PA PB P1 d S k); lia. }
    { intros k k' Hk Hk'. apply (pos_inj A D B d S); lia. }
    rewrite E1. cbn [rbind].
    destruct (IH (S + d) sts ps b1) as (b2 & E2 & L2 & G2 & O2); auto; [lia|lia|].
    exists b2. split; [exact E2|]. split; [exact L2|]. split; [split; [|exact G2]|].
    + apply (good_same A D B d S (pview p) b1); [lia| |intros q Hq; apply O2; lia]. split; [exact Lp|exact G1].
    + intros q Hq. rewrite O2 by lia. apply O1. intros k Hk Ek. rewrite Lp in Hk.
      pose proof (pos_col A D B d S k Hk ltac:(lia)). rewrite Ek in H. lia.
Qed.

(** What one run of [propagate]'s inner loop does to the state. *)
Definition ran (dt dt' : @adata V) (us : list (update V)) (lo hi : nat) : Prop :=
  length (abuf dt') = length (abuf dt) /\
  (forall q, ~ (lo <= col D B q < hi) -> nth_error (abuf dt') q = nth_error (abuf dt) q) /\
  exists nu, aupd dt' = aupd dt ++ nu /\ length nu = length us /\ Forall is_change nu /\
    rewrite_with (abuf dt) nu = Some (abuf dt') /\
    (Forall (fun u => uidx u = 0) us -> replay veqb (abuf dt) nu = Some (abuf dt')).

Lemma step_loop d S st us : S + d <= D -> (A * d * B = 0 \/ st = Z.of_nat (S * B)) -> Forall is_change us ->
  forall l l1 dt, replay veqb l us = Some l1 -> length (abuf dt) = A * D * B -> good d S l (abuf dt) ->
  exists dt', rfold (conc_step veqb dbg (mk D) (mk d) st) dt us = Ok dt' /\ good d S l1 (abuf dt') /\
    ran dt dt' us S (S + d).
Proof.
  intros HS Hst. induction us as [|u us IH]; intros Fc l l1 dt R L G.
  - cbn [replay ofold] in R. assert (l1 = l) by (unfold replay in R; cbn in R; congruence). subst l1.
    exists dt. split; [reflexivity|]. split; [exact G|]. split; [reflexivity|]. split; [auto|].
    exists []. rewrite app_nil_r. repeat split; auto.
  - inversion Fc as [|? ? [C1 C2] Fc']; subst. destruct (rp_cons_inv _ _ _ _ R) as (l' & R1 & R2).
    destruct (rp1_inv spec _ _ _ R1) as [o v Eu En El | v Eu El | o Eu El];
      [|rewrite Eu in C1; cbn in C1; congruence|rewrite Eu in C2; cbn in C2; congruence].
    destruct G as [Ll G]. pose proof (nth_error_lt _ _ En) as Hi. set (i := uidx u) in *.
    assert (Hst' : st = Z.of_nat (S * B)) by (destruct Hst as [Z|Z]; [lia|exact Z]).
    destruct (view_ok s1 s2 A B D P2 PA PB P1 d S i ltac:(lia) HS) as [Ea Ep].
    pose proof (pos_lt A D B d S i ltac:(lia) HS) as Hp.
    assert (H0 : pos D B d S 0 = S * B).
    { unfold pos. destruct (pos_parts A D B d S i ltac:(lia) HS) as (X & Y & _).
      rewrite Nat.div_0_l, Nat.mod_0_l by nia. lia. }
    assert (Ecur : nth_error (abuf dt) (pos D B d S i) = Some o) by (rewrite G by lia; exact En).
    destruct (nth_error l 0) as [x0|] eqn:En0; [|apply nth_error_None in En0; lia].
    assert (Efst : nth_error (abuf dt) (S * B) = Some x0) by (rewrite <- H0, G by lia; exact En0).
    set (dt1 := {| abuf := lset (pos D B d S i) v (abuf dt);
                   aupd := aupd dt ++ [change (pos D B d S i) x0 v]; aprev := aprev dt |}).
    assert (E1 : conc_step veqb dbg (mk D) (mk d) st dt u = Ok dt1).
    { unfold conc_step. rewrite Hst'. fold i. cbv zeta in Ea. rewrite Ea, Ep.
      rewrite (proj2 (Z.ltb_ge _ _)) by lia. rewrite !Nat2Z.id, Ecur, Efst, Eu. cbn [uval uold change].
      destruct (spec o o); [|congruence]. cbn [negb]. now rewrite Bool.andb_false_r. }
    assert (G1 : good d S l' (abuf dt1)).
    { subst l'. split; [now rewrite lset_length|]. cbn [abuf dt1]. rewrite lset_length. intros k Hk.
      rewrite !nth_error_lset. destruct (Nat.eqb_spec (pos D B d S i) (pos D B d S k)) as [Eq|Ne].
      - assert (i = k) by (apply (pos_inj A D B d S); lia). subst k. rewrite Nat.eqb_refl. cbn [andb].
        rewrite (proj2 (Nat.ltb_lt _ _)) by lia. rewrite (proj2 (Nat.ltb_lt _ _)) by lia. reflexivity.
      - destruct (Nat.eqb_spec i k) as [<-|]; [congruence|]. cbn [andb]. now apply G. }
    destruct (IH Fc' l' l1 dt1 R2) as (dt' & E' & G' & L' & O' & nu & A' & N' & F' & W' & Y'); auto.
    { cbn [abuf dt1]. now rewrite lset_length. }
    exists dt'. cbn [rfold]. rewrite E1. cbn [rbind]. split; [exact E'|]. split; [exact G'|].
    cbn [abuf dt1] in L', O', W', Y'. rewrite lset_length in L'. split; [exact L'|]. split.
    { intros q Hq. rewrite O' by exact Hq. rewrite nth_error_lset.
      destruct (Nat.eqb_spec (pos D B d S i) q) as [<-|]; [|reflexivity]. exfalso. apply Hq.
      apply (pos_col A); lia. }
    exists (change (pos D B d S i) x0 v :: nu). cbn [aupd dt1] in A'. rewrite <- app_assoc in A'.
    split; [exact A'|]. split; [cbn [length]; lia|]. split; [constructor; [split; discriminate|exact F']|]. split.
    { cbn [rewrite_with uval uidx change]. rewrite (proj2 (Nat.ltb_lt _ _)) by lia. exact W'. }
    intros F0. inversion F0 as [|? ? Z0 F0']. fold i in Z0.
    assert (x0 = o) by (rewrite Z0 in En; congruence). subst x0.
    rewrite rp_cons_eq, (rp_change spec) by exact Ecur. now apply Y'.
Qed.

Lemma prop_loop ds : forall S sts (pins : list (pin V)) olds dt, S + nsum ds <= D -> starts_ok S ds sts ->
  Forall2 (fun old p => replay veqb old (pdiff p) = Some (pview p) /\ Forall is_change (pdiff p)) olds pins ->
  length (abuf dt) = A * D * B -> goods S ds olds (abuf dt) ->
  exists dt', rfold (fun d p => rfold (conc_step veqb dbg (mk D) (snd (fst p)) (fst (fst p))) d (pdiff (snd p))) dt
      (combine (combine sts (map mk ds)) pins) = Ok dt' /\
    goods S ds (map (@pview V) pins) (abuf dt') /\ ran dt dt' (concat (map (@pdiff V) pins)) S (S + nsum ds).
Proof.
  induction ds as [|d ds IH]; intros S [|st sts] pins olds dt HS SO F L G; cbn [starts_ok] in SO; try contradiction.
  - destruct olds; [|contradiction G]. inversion F; subst. exists dt. cbn. split; [reflexivity|]. split; [auto|].
    split; [reflexivity|]. split; [auto|]. exists []. rewrite app_nil_r. repeat split; auto.
  - destruct olds as [|l olds]; [contradiction G|]. inversion F as [|? p ? ps [Hr Hc] F']; subst.
    cbn [map combine rfold fst snd]. destruct SO as [Hst SO]. cbn [fold_right] in HS. destruct G as [G1 G2].
    destruct (step_loop d S st (pdiff p) ltac:(lia) Hst Hc l (pview p) dt Hr L G1) as (d1 & E1 & G1' & L1 & O1 & nu1 & A1 & N1 & F1 & W1 & Y1).
    rewrite E1. cbn [rbind].
    destruct (IH (S + d) sts ps olds d1) as (d2 & E2 & G2' & L2 & O2 & nu2 & A2 & N2 & F2 & W2 & Y2); auto; [lia|lia| |].
    { apply (goods_same A D B ds _ _ (abuf dt)); auto; [lia|]. intros q Hq. apply O1. lia. }
    exists d2. split; [exact E2|]. split.
    + cbn [goods ConcatProofs.goods]. split; [|exact G2'].
      apply (good_same A D B d S (pview p) (abuf d1)); [lia|exact G1'|]. intros q Hq. apply O2. lia.
    + split; [congruence|]. split.
      { intros q Hq. cbn [fold_right] in Hq. rewrite O2 by lia. apply O1. lia. }
      exists (nu1 ++ nu2). split; [rewrite A2, A1, app_assoc; reflexivity|].
      split; [cbn [map concat]; rewrite !app_length; lia|]. split; [apply Forall_app; auto|]. split.
      { now rewrite (rewrite_app _ _ _ _ W1). }
      intros F0. cbn [map concat] in F0. apply Forall_app in F0. destruct F0 as [Fa Fb].
      rewrite (rp_app _ _ _ _ (Y1 Fa)). now apply Y2.
Qed.
End Run.
