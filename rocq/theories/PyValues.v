(** Values of the indexing operations the generators use. *)
From Verif Require Import Base Num SliceModel StateDataModel NodeSpec ShapeSpec SliceSpec BasicModel BasicSpec ViewSpec PermSpec AdvSpec NarySpec GenSpec PyProofs.
Set Implicit Arguments.

Lemma all_some_map {A C} (f : A -> option C) (g : A -> C) l : (forall a, In a l -> f a = Some (g a)) -> all_some (map f l) = Some (map g l).
Proof.
  induction l as [|a l IH]; intros H; [reflexivity|]. cbn. rewrite (H a); [|now left]. rewrite IH; [reflexivity|]. intros b Hb. apply H; now right.
Qed.
Lemma all_some_nth {A} (l : list A) f k : f + k <= length l -> all_some (map (nth_error l) (seq f k)) = Some (firstn k (skipn f l)).
Proof.
  revert f; induction k as [|k IH]; intros f H; [reflexivity|]. cbn [seq map all_some].
  destruct (nth_error l f) as [a|] eqn:E; [|apply nth_error_None in E; lia].
  rewrite IH by lia. apply nth_error_split in E. destruct E as (l1 & l2 & -> & <-). f_equal.
  rewrite !skipn_app, (skipn_all2 l1) by lia. rewrite skipn_all, Nat.sub_diag. replace (S (length l1) - length l1) with 1 by lia. reflexivity.
Qed.
Lemma filter_none {A} (p : A -> bool) l : (forall a, In a l -> p a = false) -> filter p l = [].
Proof. induction l as [|a l IH]; intros H; [reflexivity|]. cbn. rewrite (H a); [|now left]. apply IH. intros b Hb; apply H; now right. Qed.
Lemma filter_all {A} (p : A -> bool) l : (forall a, In a l -> p a = true) -> filter p l = l.
Proof. induction l as [|a l IH]; intros H; [reflexivity|]. cbn. rewrite (H a); [|now left]. f_equal. apply IH. intros b Hb; apply H; now right. Qed.
Lemma filter_range (p : nat -> bool) n f k : f + k <= n -> (forall x, x < n -> p x = true <-> f <= x < f + k) -> filter p (seq 0 n) = seq f k.
Proof.
  intros H Hp. replace n with (f + (k + (n - f - k))) by lia. rewrite !seq_app, !filter_app. cbn [plus].
  rewrite (filter_none p (seq 0 f)), (filter_all p (seq f k)), (filter_none p (seq (f + k) _)).
  - now rewrite app_nil_r.
  - intros x Hx. apply in_seq in Hx. destruct (p x) eqn:E; [|reflexivity]. apply Hp in E; lia.
  - intros x Hx. apply in_seq in Hx. apply Hp; lia.
  - intros x Hx. apply in_seq in Hx. destruct (p x) eqn:E; [|reflexivity]. apply Hp in E; lia.
Qed.
Lemma filter_map_comm {A C} (p : C -> bool) (g : A -> C) l : filter p (map g l) = map g (filter (fun a => p (g a)) l).
Proof. induction l as [|a l IH]; [reflexivity|]. cbn. destruct (p (g a)); cbn; now rewrite IH. Qed.

(** * Views of vectors and of rows *)
Definition lo (n : nat) (a : Z) : nat := Z.to_nat (Z.max 0 (py_norm (Z.of_nat n) a)).
Definition hi (n : nat) (b : Z) : nat := Z.to_nat (Z.min (Z.of_nat n) (py_norm (Z.of_nat n) b)).
Definition cut {A} (a b : Z) (l : list A) : list A := firstn (hi (length l) b - lo (length l) a) (skipn (lo (length l) a) l).
Lemma chosen_slice n a b :
  chosen (Z.of_nat n) (ISlice (Slice a b 1)) = map Z.of_nat (if hi n b <=? lo n a then [] else seq (lo n a) (hi n b - lo n a)).
Proof.
  unfold chosen, zseq. rewrite Nat2Z.id, filter_map_comm. f_equal. cbn [sstart sstop sstep].
  set (p := fun x => _).
  assert (Hp : forall x, x < n -> p x = true <-> lo n a <= x < hi n b).
  { intros x Hx. unfold p, lo, hi. rewrite !andb_true_iff, Z.leb_le, Z.ltb_lt, Z.eqb_eq, Z.mod_1_r. lia. }
  destruct (Nat.leb_spec (hi n b) (lo n a)).
  - apply filter_none. intros x Hx. apply in_seq in Hx. destruct (p x) eqn:E; [|reflexivity]. apply Hp in E; lia.
  - apply filter_range; [unfold hi, lo in *; lia|]. intros x Hx. rewrite Hp by exact Hx. lia.
Qed.
Lemma selected1 d i : selected [d] [i] = chosen d i.
Proof.
  cbn [selected]. change (prod []) with 1%Z. induction (chosen d i) as [|x l IH]; [reflexivity|]. cbn [flat_map]. rewrite IH. cbn. f_equal. lia.
Qed.
Definition vector_shape {A} (sh : list Z) (l : list A) : Prop := sh = [Z.of_nat (length l)] \/ sh = [-1]%Z.
Lemma cur_shape1 {A} sh (l : list A) : vector_shape sh l -> cur_shape sh l = [Z.of_nat (length l)].
Proof.
  intros [-> | ->]; unfold cur_shape, dynamic; cbn [hd].
  - destruct (Z.ltb_spec (Z.of_nat (length l)) 0); [lia|reflexivity].
  - cbn. now rewrite Z.div_1_r.
Qed.
Lemma view_slice (l : list num) sh a b :
  vector_shape sh l -> (Z.of_nat (length l) < 2147483648)%Z -> view_fun sh [ISlice (Slice a b 1)] [l] = Some (cut a b l).
Proof.
  intros Hs Hl. unfold view_fun. destruct (Z.ltb_spec (Z.of_nat (length l)) 2147483648) as [_|H]; [|lia].
  rewrite (cur_shape1 Hs), selected1, chosen_slice, map_map.
  rewrite (map_ext _ (nth_error l)) by (intros; now rewrite Nat2Z.id).
  unfold cut. destruct (Nat.leb_spec (hi (length l) b) (lo (length l) a)) as [H|H].
  - replace (hi (length l) b - lo (length l) a) with 0 by lia. reflexivity.
  - apply all_some_nth. unfold hi in *. lia.
Qed.
Lemma view_int (l : list num) z : (- Z.of_nat (length l) <= z < Z.of_nat (length l))%Z -> (Z.of_nat (length l) < 2147483648)%Z ->
  view_fun [Z.of_nat (length l)] [IInt z] [l] = Some [nth (Z.to_nat (py_norm (Z.of_nat (length l)) z)) l 0%Qc].
Proof.
  intros Hz Hl. unfold view_fun. destruct (Z.ltb_spec (Z.of_nat (length l)) 2147483648) as [_|H]; [|lia].
  rewrite (@cur_shape1 num) by now left. rewrite selected1. cbn [chosen map all_some].
  rewrite (nth_error_nth' l 0%Qc); [reflexivity|]. unfold py_norm. destruct (Z.ltb_spec z 0); lia.
Qed.
Lemma nth_error_concat {A} (D : list (list A)) r c i j : length D = r -> Forall (fun row => length row = c) D -> i < r -> j < c ->
  nth_error (concat D) (i * c + j) = nth_error (nth i D []) j.
Proof.
  revert r i; induction D as [|row D IH]; intros r i <- HF Hi Hj; [cbn in Hi; lia|]. inversion HF as [|x l Hc HF']; subst.
  cbn [concat]. destruct i as [|i]; cbn [nth].
  - cbn. now apply nth_error_app1.
  - rewrite nth_error_app2; [|nia]. rewrite <- (IH (length D) i); auto; [|cbn in Hi; lia]. f_equal. nia.
Qed.
Lemma concat_length' {A} (D : list (list A)) r c : length D = r -> Forall (fun row => length row = c) D -> length (concat D) = r * c.
Proof.
  revert r; induction D as [|row D IH]; intros r <- HF; [reflexivity|]. inversion HF as [|x l Hc HF']; subst.
  cbn [concat length]. rewrite app_length, (IH (length D)); auto.
Qed.
Lemma nth_row {A} (D : list (list A)) c i : Forall (fun row => length row = c) D -> i < length D -> length (nth i D []) = c.
Proof. intros HF Hi. rewrite Forall_forall in HF. apply HF. now apply nth_In. Qed.

Lemma chosen_range n i x : In x (chosen (Z.of_nat n) i) -> (match i with IInt z => (- Z.of_nat n <= z < Z.of_nat n)%Z | ISlice _ => True end) ->
  (0 <= x < Z.of_nat n)%Z.
Proof.
  intros Hx Hi. destruct i as [z|s]; cbn [chosen] in Hx.
  - destruct Hx as [<-|[]]. unfold py_norm. destruct (Z.ltb_spec z 0); lia.
  - apply filter_In in Hx. destruct Hx as [Hx _]. unfold zseq in Hx. apply in_map_iff in Hx. destruct Hx as (y & <- & Hy). apply in_seq in Hy. lia.
Qed.
Lemma all_some_ext {A C} (f g : A -> option C) l : (forall a, In a l -> f a = g a) -> all_some (map f l) = all_some (map g l).
Proof. intros H. f_equal. now apply map_ext_in. Qed.
(** A row, or a part of one. *)
Lemma view_row (D : list (list num)) r c i ix : matrix r c D -> i < r -> (Z.of_nat (r * c) < 2147483648)%Z ->
  (match ix with IInt z => (- Z.of_nat c <= z < Z.of_nat c)%Z | ISlice _ => True end) ->
  view_fun [Z.of_nat r; Z.of_nat c] [IInt (Z.of_nat i); ix] [concat D] = view_fun [Z.of_nat c] [ix] [nth i D []].
Proof.
  intros [Hr HF] Hi Hl Hx. unfold view_fun. rewrite (concat_length' Hr HF), (@nth_row _ D c i) by (auto; lia).
  destruct (Z.ltb_spec (Z.of_nat (r * c)) 2147483648) as [_|H]; [|lia].
  destruct (Z.ltb_spec (Z.of_nat c) 2147483648) as [_|H]; [|nia].
  assert (E1 : cur_shape [Z.of_nat r; Z.of_nat c] (concat D) = [Z.of_nat r; Z.of_nat c]).
  { unfold cur_shape, dynamic. cbn [hd]. destruct (Z.ltb_spec (Z.of_nat r) 0); [lia|reflexivity]. }
  assert (E2 : cur_shape [Z.of_nat c] (nth i D []) = [Z.of_nat c]).
  { unfold cur_shape, dynamic. cbn [hd]. destruct (Z.ltb_spec (Z.of_nat c) 0); [lia|reflexivity]. }
  rewrite E1, E2. rewrite selected1.
  assert (E3 : selected [Z.of_nat r; Z.of_nat c] [IInt (Z.of_nat i); ix] = map (fun o => Z.of_nat i * Z.of_nat c + o)%Z (chosen (Z.of_nat c) ix)).
  { rewrite <- selected1. cbn [selected]. cbn [chosen]. unfold py_norm. destruct (Z.ltb_spec (Z.of_nat i) 0); [lia|].
    cbn [flat_map]. rewrite app_nil_r. change (prod [Z.of_nat c]) with (Z.of_nat c * 1)%Z. rewrite Z.mul_1_r. reflexivity. }
  rewrite E3, map_map. apply all_some_ext. intros o Ho. apply chosen_range in Ho; [|exact Hx].
  replace (Z.to_nat (Z.of_nat i * Z.of_nat c + o)) with (i * c + Z.to_nat o) by nia.
  apply (nth_error_concat Hr HF Hi). lia.
Qed.

(** * Advanced indexing *)
Lemma below_nat n i : i < n -> below n (zq (Z.of_nat i)) = Some i.
Proof.
  intros H. unfold below.
  assert (G : forall s k, s <= i < s + k -> find (fun j => qeqb (zq (Z.of_nat i)) (zq (Z.of_nat j))) (seq s k) = Some i).
  { intros s k. revert s; induction k as [|k IH]; intros s Hs; [lia|]. cbn [seq find].
    destruct (qeqb_spec (zq (Z.of_nat i)) (zq (Z.of_nat s))) as [E|E].
    - apply zq_inj in E. f_equal. lia.
    - apply IH. destruct (Nat.eq_dec s i) as [->|]; [congruence|lia]. }
  apply G. lia.
Qed.
Lemma numbers_length l : length (numbers l) = length l.
Proof. unfold numbers. apply map_length. Qed.
Lemma numbers_nth l j : j < length l -> nth_error (numbers l) j = Some (zq (Z.of_nat (nth j l 0))).
Proof.
  intros H. unfold numbers. rewrite nth_error_map, (nth_error_nth' l 0) by exact H. reflexivity.
Qed.
Lemma seq_nth_map {A C} (l : list A) (f : A -> C) d : map (fun j => f (nth j l d)) (seq 0 (length l)) = map f l.
Proof.
  induction l as [|a l IH]; [reflexivity|]. cbn [length seq map]. cbn [nth]. f_equal. rewrite <- seq_shift, map_map. exact IH.
Qed.
Lemma Forall_nth_lt n l j : Forall (fun i => i < n) l -> j < length l -> nth j l 0 < n.
Proof. intros H Hj. rewrite Forall_forall in H. apply H. now apply nth_In. Qed.

Lemma all_idx1 k : PermSpec.all_idx [Z.of_nat k] = map (fun i => [Z.of_nat i]) (seq 0 k).
Proof. cbn [PermSpec.all_idx]. rewrite Nat2Z.id. induction (seq 0 k) as [|a l IH]; [reflexivity|]. cbn. now rewrite <- IH. Qed.

Lemma adv_vector (w : list num) (l : list nat) : Forall (fun i => i < length w) l ->
  adv_fun [Z.of_nat (length w)] 0 [true] [w; numbers l] = Some (map (fun i => nth i w 0%Qc) l).
Proof.
  intros H. unfold adv_fun. cbn [forallb length shape_now pick]. 
  destruct (Z.ltb_spec (Z.of_nat (length w)) 0) as [|_]; [lia|]. cbn [Bool.eqb map].
  cbn [andb length Nat.add Nat.eqb]. rewrite Nat2Z.id, numbers_length.
  rewrite (@all_some_map _ _ _ (fun j => [Z.of_nat (nth j l 0)])).
  2:{ intros j Hj. apply in_seq in Hj. unfold coords. cbn [combine map fst snd]. rewrite numbers_nth by lia.
      rewrite below_nat by (apply Forall_nth_lt; [exact H|lia]). reflexivity. }
  rewrite (seq_nth_map l (fun i => [Z.of_nat i]) 0).
  unfold result_axis. cbn [separatedb lead skipn after_run existsb]. change (separatedb [true]) with false. cbn [lead ins firstn skipn app].
  unfold ins. cbn [firstn skipn app]. rewrite all_idx1, map_map.
  rewrite (@all_some_map _ _ _ (fun j => nth (nth j l 0) w 0%Qc)).
  2:{ intros j Hj. apply in_seq in Hj. cbn [nth]. rewrite Nat2Z.id.
      rewrite (@nth_indep _ _ j [] [Z.of_nat 0]) by (rewrite map_length; lia).
      rewrite (map_nth (fun i => [Z.of_nat i])). cbn [merge hd tl]. unfold rank. cbn [combine fold_left fst snd].
      rewrite Z.mul_0_l, Z.add_0_l, Nat2Z.id. apply nth_error_nth'. apply Forall_nth_lt; [exact H|lia]. }
  f_equal. apply (seq_nth_map l (fun i => nth i w 0%Qc) 0).
Qed.
Lemma adv_matrix (D : list (list num)) r c (l1 l2 : list nat) : matrix r c D ->
  Forall (fun i => i < r) l1 -> Forall (fun i => i < c) l2 -> length l1 = length l2 ->
  adv_fun [Z.of_nat r; Z.of_nat c] 0 [true; true] [concat D; numbers l1; numbers l2] = Some (map (fun p => entry D (fst p) (snd p)) (combine l1 l2)).
Proof.
  intros [Hr HF] H1 H2 Hl. unfold adv_fun. cbn [forallb length shape_now pick].
  destruct (Z.ltb_spec (Z.of_nat r) 0) as [|_]; [lia|]. cbn [Bool.eqb map]. rewrite !numbers_length, <- Hl, Nat.eqb_refl.
  cbn [andb length Nat.add Nat.eqb]. rewrite !Nat2Z.id.
  rewrite (@all_some_map _ _ _ (fun j => [Z.of_nat (nth j l1 0); Z.of_nat (nth j l2 0)])).
  2:{ intros j Hj. apply in_seq in Hj. unfold coords. cbn [combine map fst snd]. rewrite !numbers_nth by lia.
      rewrite !below_nat by (apply Forall_nth_lt; [assumption|lia]). reflexivity. }
  change (result_axis [true; true]) with 0. unfold ins. cbn [firstn skipn app]. rewrite all_idx1, map_map.
  rewrite (@all_some_map _ _ _ (fun j => entry D (nth j l1 0) (nth j l2 0))).
  2:{ intros j Hj. apply in_seq in Hj. cbn [nth]. rewrite Nat2Z.id.
      erewrite nth_error_nth with (n := j); [|rewrite nth_error_map, (nth_error_nth' _ 0) by (rewrite seq_length; lia); cbn [option_map]; reflexivity].
      rewrite seq_nth by lia. cbn [merge hd tl plus]. unfold rank. cbn [combine fold_left fst snd].
      assert (A1 : nth j l1 0 < r) by (apply Forall_nth_lt; [exact H1|lia]).
      assert (A2 : nth j l2 0 < c) by (apply Forall_nth_lt; [exact H2|lia]).
      replace (Z.to_nat _) with (nth j l1 0 * c + nth j l2 0) by lia.
      rewrite (nth_error_concat Hr HF A1 A2). unfold entry. apply nth_error_nth'. rewrite (@nth_row _ D c) by (auto; lia). exact A2. }
  f_equal. rewrite <- (seq_nth_map (combine l1 l2) (fun p => entry D (fst p) (snd p)) (0, 0)).
  rewrite combine_length, <- Hl, Nat.min_id. apply map_ext. intros j. rewrite combine_nth by exact Hl. reflexivity.
Qed.

Lemma all_idx2 k c : PermSpec.all_idx [Z.of_nat k; Z.of_nat c] = flat_map (fun i => map (fun j => [Z.of_nat i; Z.of_nat j]) (seq 0 c)) (seq 0 k).
Proof.
  change (PermSpec.all_idx [Z.of_nat k; Z.of_nat c])
    with (flat_map (fun i => map (cons (Z.of_nat i)) (PermSpec.all_idx [Z.of_nat c])) (seq 0 (Z.to_nat (Z.of_nat k)))).
  rewrite Nat2Z.id, all_idx1. apply flat_map_ext. intros i. apply map_map.
Qed.
Lemma map_flat_map {A C E} (f : C -> E) (g : A -> list C) l : map f (flat_map g l) = flat_map (fun a => map f (g a)) l.
Proof. induction l as [|a l IH]; [reflexivity|]. cbn. now rewrite map_app, IH. Qed.
Lemma flat_map_concat {A C} (f : A -> list C) l : flat_map f l = concat (map f l).
Proof. induction l as [|a l IH]; [reflexivity|]. cbn. now rewrite IH. Qed.
Lemma seq_nth_id {A} (l : list A) d n : length l = n -> map (fun j => nth j l d) (seq 0 n) = l.
Proof. intros <-. rewrite (seq_nth_map l (fun x => x) d). apply map_id. Qed.

Lemma adv_rows (D : list (list num)) r c (l : list nat) : matrix r c D -> Forall (fun i => i < r) l ->
  adv_fun [Z.of_nat r; Z.of_nat c] 0 [true; false] [concat D; numbers l] = Some (concat (map (fun i => nth i D []) l)).
Proof.
  intros [Hr HF] H1. unfold adv_fun. cbn [forallb length shape_now pick].
  destruct (Z.ltb_spec (Z.of_nat r) 0) as [|_]; [lia|]. cbn [Bool.eqb map]. rewrite !numbers_length.
  cbn [andb length Nat.add Nat.eqb]. rewrite !Nat2Z.id.
  rewrite (@all_some_map _ _ _ (fun j => [Z.of_nat (nth j l 0)])).
  2:{ intros j Hj. apply in_seq in Hj. unfold coords. cbn [combine map fst snd]. rewrite !numbers_nth by lia.
      rewrite !below_nat by (apply Forall_nth_lt; [assumption|lia]). reflexivity. }
  change (result_axis [true; false]) with 0. unfold ins. cbn [firstn skipn app]. rewrite all_idx2.
  rewrite (seq_nth_map l (fun i => [Z.of_nat i]) 0).
  rewrite (@all_some_map _ _ _ (fun o => entry D (nth (Z.to_nat (nth 0 o 0%Z)) l 0) (Z.to_nat (nth 1 o 0%Z)))).
  2:{ intros o Ho. apply in_flat_map in Ho. destruct Ho as (i & Hi & Ho). apply in_map_iff in Ho. destruct Ho as (j & <- & Hj).
      apply in_seq in Hi, Hj. cbn [nth]. rewrite !Nat2Z.id.
      rewrite (@nth_indep _ _ i [] [Z.of_nat 0]) by (rewrite map_length; lia).
      rewrite (map_nth (fun i => [Z.of_nat i])). unfold del. cbn [firstn skipn app merge hd tl]. unfold rank. cbn [combine fold_left fst snd].
      assert (A1 : nth i l 0 < r) by (apply Forall_nth_lt; [exact H1|lia]).
      replace (Z.to_nat _) with (nth i l 0 * c + j) by lia.
      rewrite (nth_error_concat Hr HF A1) by lia. unfold entry. apply nth_error_nth'. rewrite (@nth_row _ D c) by (auto; lia). lia. }
  f_equal. rewrite map_flat_map. rewrite <- (seq_nth_map l (fun i => nth i D []) 0), <- flat_map_concat.
  rewrite !flat_map_concat. f_equal. apply map_ext_in. intros i Hi. apply in_seq in Hi. rewrite map_map. cbn [nth]. rewrite Nat2Z.id.
  rewrite (map_ext _ (fun j => nth j (nth (nth i l 0) D []) 0%Qc)) by (intros j; rewrite Nat2Z.id; reflexivity).
  apply seq_nth_id. apply nth_row; [exact HF|]. rewrite Hr. apply Forall_nth_lt; [exact H1|lia].
Qed.
Lemma perm_matrix (D : list (list num)) n (p : list nat) : matrix n n D -> length p = n -> Forall (fun i => i < n) p ->
  perm_fun n 2 [concat D; numbers p] = Some (concat (map (fun i => map (fun j => entry D i j) p) p)).
Proof.
  intros [Hr HF] Hp H. unfold perm_fun. rewrite (concat_length' Hr HF).
  assert (E : all_some (map (below n) (numbers p)) = Some p).
  { unfold numbers. rewrite map_map. rewrite (@all_some_map _ _ _ (fun i => i)); [now rewrite map_id|].
    intros i Hi. apply below_nat. rewrite Forall_forall in H. now apply H. }
  rewrite E. replace (n ^ 2) with (n * n) by (cbn; lia). rewrite Hp, !Nat.eqb_refl. cbn [andb]. f_equal.
  cbn [repeat]. rewrite all_idx2, map_flat_map. rewrite flat_map_concat.
  rewrite <- (seq_nth_map p (fun i => map (fun j => entry D i j) p) 0), Hp. f_equal. apply map_ext_in. intros i Hi. apply in_seq in Hi.
  rewrite map_map. cbn [map]. rewrite <- (seq_nth_map p (fun j => entry D (nth i p 0) j) 0), Hp. apply map_ext_in. intros j Hj. apply in_seq in Hj.
  rewrite !Nat2Z.id. unfold rank. cbn [combine fold_left fst snd].
  assert (A1 : nth i p 0 < n) by (apply Forall_nth_lt; [exact H|lia]).
  assert (A2 : nth j p 0 < n) by (apply Forall_nth_lt; [exact H|lia]).
  replace (Z.to_nat _) with (nth i p 0 * n + nth j p 0) by lia.
  unfold entry. pose proof (nth_error_concat Hr HF A1 A2) as E1.
  rewrite (nth_error_nth' (nth (nth i p 0) D []) 0%Qc) in E1 by (rewrite (@nth_row _ D n) by (auto; lia); exact A2).
  now apply nth_error_nth with (d := 0%Qc) in E1.
Qed.
