From Verif Require Import Base SliceModel SliceSpec.
Local Open Scope Z_scope.

Lemma div_count d st m : 0 < st -> 0 <= m -> (m < d / st + 1 <-> m * st <= d).
Proof.
  intros Hs Hm. split; intros H.
  - assert (m <= d / st) by lia. pose proof (Z.mul_div_le d st Hs). nia.
  - assert (m <= d / st); [|lia]. apply Z.div_le_lower_bound; lia.
Qed.

(** The exact number of terms before the stop bound. *)
Definition terms (s : slice) (k : Z) : Prop :=
  0 <= k /\ forall m, 0 <= m ->
    ((if 0 <? sstep s then sstart s + m * sstep s < sstop s
      else sstop s < sstart s + m * sstep s) <-> m < k).

Definition size_defined (s : slice) : Prop :=
  sstep s < 0 -> sstop s < sstart s ->
  SMIN < sstep s /\ ~ (sstart s = 0 /\ sstop s = SMIN).
Definition size_defined_up (s : slice) : Prop :=
  0 < sstep s -> ~ (sstop s = 0 /\ sstart s = SMIN).

Lemma schk_ok z : SMIN <= z <= SMAX -> schk z = Ok z.
Proof.
  intros H. unfold schk. destruct (Z.leb_spec SMIN z); [|lia].
  destruct (Z.leb_spec z SMAX); [reflexivity|lia].
Qed.

Lemma size_terms s : ssize (sstart s) -> ssize (sstop s) -> ssize (sstep s) -> sstep s <> 0 ->
  size_defined s -> size_defined_up s -> exists k, slice_size s = Ok k /\ terms s k.
Proof.
  intros H1 H2 H3 H0 D1 D2. unfold ssize in *. unfold slice_size, terms.
  unfold size_defined, size_defined_up in *.
  destruct (Z.ltb_spec (sstep s) 0) as [Hn|Hp].
  - destruct (Z.ltb_spec 0 (sstep s)); [lia|].
    destruct (Z.ltb_spec (sstop s) (sstart s)) as [Hl|Hl].
    + destruct (D1 Hn Hl) as [A B].
      rewrite schk_ok by (unfold SMIN, SMAX in *; lia). cbn [rbind].
      assert (HT : forall d, d = sstart s - sstop s - 1 -> terms s (d / (- sstep s) + 1)).
      { intros d ->. unfold terms. destruct (Z.ltb_spec 0 (sstep s)); [lia|].
        split; [assert (0 <= (sstart s - sstop s - 1) / - sstep s) by (apply Z.div_pos; lia); lia|].
        intros m Hm. rewrite div_count by lia. lia. }
      unfold terms in HT. destruct (Z.ltb_spec 0 (sstep s)); [lia|].
      destruct (Z.ltb_spec 0 (sstart s)).
      * eexists. split; [reflexivity|]. apply HT. apply Z.mod_small. unfold UMOD; lia.
      * rewrite schk_ok by (unfold SMIN, SMAX in *; lia). cbn [rbind].
        rewrite schk_ok by (unfold SMIN, SMAX in *; lia). cbn [rbind].
        eexists. split; [reflexivity|]. rewrite Z.quot_div_nonneg by lia. apply HT. reflexivity.
    + exists 0. split; [reflexivity|]. split; [lia|]. intros m Hm. split; [|lia]. nia.
  - destruct (Z.ltb_spec 0 (sstep s)); [|lia].
    destruct (Z.ltb_spec (sstart s) (sstop s)) as [Hl|Hl].
    + assert (HT : forall d, d = sstop s - sstart s - 1 -> terms s (d / sstep s + 1)).
      { intros d ->. unfold terms. destruct (Z.ltb_spec 0 (sstep s)); [|lia].
        split; [assert (0 <= (sstop s - sstart s - 1) / sstep s) by (apply Z.div_pos; lia); lia|].
        intros m Hm. rewrite div_count by lia. lia. }
      unfold terms in HT. destruct (Z.ltb_spec 0 (sstep s)); [|lia].
      destruct (Z.ltb_spec 0 (sstop s)).
      * eexists. split; [reflexivity|]. apply HT. apply Z.mod_small. unfold UMOD; lia.
      * rewrite schk_ok by (unfold SMIN, SMAX in *; lia). cbn [rbind].
        rewrite schk_ok by (unfold SMIN, SMAX in *; lia). cbn [rbind].
        eexists. split; [reflexivity|]. rewrite Z.quot_div_nonneg by lia. apply HT. reflexivity.
    + exists 0. split; [reflexivity|]. split; [lia|]. intros m Hm. split; [|lia]. nia.
Qed.

Lemma indices_in s k x : 0 <= k -> In x (slice_indices s k) <->
  exists m, 0 <= m < k /\ x = sstart s + m * sstep s.
Proof.
  intros Hk. unfold slice_indices. rewrite in_map_iff. split.
  - intros [i [E H]]. apply in_seq in H. exists (Z.of_nat i). lia.
  - intros [m [H E]]. exists (Z.to_nat m). rewrite in_seq. split; [|lia].
    rewrite Z2Nat.id by lia. lia.
Qed.

Lemma indices_walks s k : sstep s <> 0 -> walks (sstep s) (slice_indices s k).
Proof.
  intros H0 i j x y Hij Hi Hj. unfold slice_indices in *.
  rewrite nth_error_map, nth_error_seq in Hi, Hj.
  destruct (i <? Z.to_nat k)%nat; [|discriminate]. destruct (j <? Z.to_nat k)%nat; [|discriminate].
  injection Hi as <-. injection Hj as <-. destruct (Z.ltb_spec 0 (sstep s)); nia.
Qed.

Lemma indices_length s k : length (slice_indices s k) = Z.to_nat k.
Proof. unfold slice_indices. now rewrite map_length, seq_length. Qed.

Lemma fit_bound_ssize b st n : ssize b -> 0 <= n <= SMAX ->
  -1 <= fit_bound b st n <= n /\ ssize (fit_bound b st n).
Proof.
  intros Hb Hn. unfold ssize, fit_bound, SMAX in *.
  destruct (Z.ltb_spec b 0); [destruct (Z.ltb_spec (b + n) 0)|destruct (Z.leb_spec n b)];
    try destruct (Z.ltb_spec st 0); lia.
Qed.

Lemma fit_python start stop step n :
  ossize start -> ossize stop -> ssize step -> step <> 0 -> SMIN < step ->
  0 <= n <= SMAX ->
  exists s f k, mk_slice start stop (Some step) = Ok s /\ fit s n = Ok f /\ slice_size f = Ok k /\
    sstep f = step /\ 0 <= k <= n /\
    (forall x, In x (slice_indices f k) <-> py_selects n start stop step x).
Proof.
  intros H1 H2 H3 H0 H4 Hn. unfold mk_slice. cbn [value_or].
  destruct (Z.eqb_spec step 0) as [|_]; [congruence|].
  set (a := value_or start (if step <? 0 then SMAX else 0)).
  set (b := value_or stop (if step <? 0 then SMIN else SMAX)).
  assert (Ha : ssize a).
  { unfold a. destruct start; cbn [value_or]; [exact H1|]. unfold ssize, SMAX.
    destruct (step <? 0); lia. }
  assert (Hb : ssize b).
  { unfold b. destruct stop; cbn [value_or]; [exact H2|]. unfold ssize, SMAX, SMIN.
    destruct (step <? 0); lia. }
  exists (Slice a b step). unfold fit, mk_slice. cbn [sstart sstop sstep value_or].
  destruct (Z.eqb_spec step 0) as [|_]; [congruence|].
  destruct (fit_bound_ssize a step n Ha Hn) as [Ra Sa].
  destruct (fit_bound_ssize b step n Hb Hn) as [Rb Sb].
  set (f := Slice (fit_bound a step n) (fit_bound b step n) step).
  destruct (size_terms f) as [k [Ek [Hk Tk]]]; cbn [f sstart sstop sstep]; auto.
  { intros _ _. cbn. split; [exact H4|]. unfold SMIN. lia. }
  { intros _. cbn. unfold SMIN. lia. }
  exists f, k. split; [reflexivity|]. split; [reflexivity|]. split; [exact Ek|].
  split; [reflexivity|].
  assert (HF : forall x, In x (slice_indices f k) <-> py_selects n start stop step x).
  { intros x. rewrite (indices_in f k x Hk). unfold py_selects.
    cbn [f sstart sstep sstop] in *.
    assert (C : forall m, 0 <= m -> 0 <= fit_bound a step n + m * step < n ->
      (m < k <-> py_before_stop n stop step (fit_bound a step n + m * step))).
    { intros m Hm Hx. rewrite <- (Tk m Hm). unfold py_before_stop.
      assert (G : if 0 <? step then
         (fit_bound a step n + m * step < fit_bound b step n <->
            match stop with None => True | Some z => fit_bound a step n + m * step < py_norm n z end)
         else (fit_bound b step n < fit_bound a step n + m * step <->
            match stop with None => True | Some z => py_norm n z < fit_bound a step n + m * step end)).
      { set (X := fit_bound a step n + m * step) in *. clearbody X.
        unfold fit_bound, b, py_norm. unfold SMAX, SMIN in *.
        destruct (Z.ltb_spec 0 step), (Z.ltb_spec step 0); try lia;
        destruct stop as [z|]; cbn [value_or ossize] in *; unfold ssize in *.
        - destruct (Z.ltb_spec z 0); [destruct (Z.ltb_spec (z + n) 0)|destruct (Z.leb_spec n z)]; lia.
        - destruct (Z.ltb_spec 9223372036854775807 0); [lia|].
          destruct (Z.leb_spec n 9223372036854775807); lia.
        - destruct (Z.ltb_spec z 0); [destruct (Z.ltb_spec (z + n) 0)|destruct (Z.leb_spec n z)]; lia.
        - destruct (Z.ltb_spec (-9223372036854775808) 0); [|lia].
          destruct (Z.ltb_spec (-9223372036854775808 + n) 0); lia. }
      destruct (0 <? step); destruct stop; exact G. }
    assert (Fin : (exists m, 0 <= m /\ 0 <= fit_bound a step n + m * step < n /\
                    x = fit_bound a step n + m * step) <->
                  (0 <= x < n /\ exists m, 0 <= m /\ x = py_first n start step + m * step)).
    { assert (EF : fit_bound a step n = py_first n start step \/
          (0 < step /\ n <= fit_bound a step n /\ n <= py_first n start step) \/
          (step < 0 /\ fit_bound a step n < 0 /\ py_first n start step < 0)).
      { unfold fit_bound, a, py_first, py_norm. unfold SMAX, SMIN in *.
        destruct (Z.ltb_spec 0 step), (Z.ltb_spec step 0); try lia;
        destruct start as [z|]; cbn [value_or ossize] in *; unfold ssize in *.
        - destruct (Z.ltb_spec z 0); [destruct (Z.ltb_spec (z + n) 0)|destruct (Z.leb_spec n z)]; lia.
        - destruct (Z.ltb_spec 0 0); [lia|].
          destruct (Z.leb_spec n 0); lia.
        - destruct (Z.ltb_spec z 0); [destruct (Z.ltb_spec (z + n) 0)|destruct (Z.leb_spec n z)]; lia.
        - destruct (Z.ltb_spec 9223372036854775807 0); [lia|].
          destruct (Z.leb_spec n 9223372036854775807); lia. }
      destruct EF as [E|[[S1 [S2 S3]]|[S1 [S2 S3]]]].
      - rewrite E. split.
        + intros [m [A [B ->]]]. eauto.
        + intros [B [m [A ->]]]. exists m. auto.
      - split.
        + intros [m [A [B ->]]]. nia.
        + intros [B [m [A ->]]]. nia.
      - split.
        + intros [m [A [B ->]]]. nia.
        + intros [B [m [A ->]]]. nia. }
    split.
    - intros [m [Hm ->]].
      assert (Hin : 0 <= fit_bound a step n + m * step < n).
      { assert (T := proj2 (Tk m (proj1 Hm)) (proj2 Hm)).
        destruct (Z.ltb_spec 0 step).
        - split; [|lia]. assert (0 <= fit_bound a step n); [|nia].
          unfold fit_bound. destruct (Z.ltb_spec a 0); [destruct (Z.ltb_spec (a + n) 0)|destruct (Z.leb_spec n a)];
            destruct (Z.ltb_spec step 0); lia.
        - split; [lia|]. assert (fit_bound a step n < n); [|nia].
          unfold fit_bound. destruct (Z.ltb_spec a 0); [destruct (Z.ltb_spec (a + n) 0)|destruct (Z.leb_spec n a)];
            destruct (Z.ltb_spec step 0); lia. }
      split; [exact Hin|]. split; [apply C; lia|].
      apply (proj1 Fin). exists m. split; [lia|]. split; [exact Hin|reflexivity].
    - intros [Hx [Hs Hf]].
      destruct (proj2 Fin (conj Hx Hf)) as [m [Hm [_ ->]]].
      exists m. split; [|reflexivity]. split; [exact Hm|]. apply C; auto. }
  split; [|exact HF].
  split; [exact Hk|].
  (* the indices are distinct positions in [0, n) *)
  assert (L : (length (slice_indices f k) <= length (map Z.of_nat (seq 0 (Z.to_nat n))))%nat).
  { apply NoDup_incl_length.
    - apply NoDup_nth_error. intros i j Hi E.
      destruct (Nat.lt_trichotomy i j) as [L|[L|L]]; [|exact L|];
      (destruct (nth_error (slice_indices f k) i) as [x|] eqn:Ei; [|apply nth_error_None in Ei; lia]);
      symmetry in E.
      + pose proof (indices_walks f k H0 i j x x L Ei E). destruct (0 <? sstep f); lia.
      + pose proof (indices_walks f k H0 j i x x L E Ei). destruct (0 <? sstep f); lia.
    - intros x Hx. apply HF in Hx. destruct Hx as [Hx _]. apply in_map_iff.
      exists (Z.to_nat x). rewrite in_seq. lia. }
  rewrite indices_length, map_length, seq_length in L. lia.
Qed.
