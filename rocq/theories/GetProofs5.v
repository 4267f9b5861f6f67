(** Reordering rows and columns by the same array. *)
From Verif Require Import Base Num SliceModel ShapeModel ShapeSpec ShapeProofs SliceSpec BasicModel BasicSpec PermModel PermSpec AdvModel AdvSpec AdvProofs AdvProofs12
  NodeSpec StateDataModel PyModel PySpec PyProofs GetSpec GetProofs GetProofs2 GetProofs3.
Local Open Scope Z_scope.

Section Square.
Variables (n : nat) (A p : list num).
Hypothesis Lp : length p = n.
Hypothesis Fp : Forall (fun x => exists z, 0 <= z < Z.of_nat n /\ x = zq z) p.
Notation N := (Z.of_nat n).
Notation sl := (NSlice None None None).

Definition at_p (i : nat) : nat := match nth_error p i with Some x => match below n x with Some k => k | None => O end | None => O end.
Lemma at_p_ok i : (i < n)%nat -> exists x, nth_error p i = Some x /\ below n x = Some (at_p i) /\ (at_p i < n)%nat.
Proof.
  intros H. unfold at_p. destruct (nth_error p i) as [x|] eqn:E; [|apply nth_error_None in E; lia]. exists x. split; [reflexivity|].
  rewrite Forall_forall in Fp. destruct (Fp x (nth_error_In _ _ E)) as (z & Hz & ->). rewrite below_zq by lia. split; [reflexivity|lia].
Qed.
Lemma full_positions i : (i < n)%nat -> nth_error (positions N None None None) i = Some (Z.of_nat i).
Proof.
  intros H. unfold positions. rewrite PyValues.filter_all.
  - rewrite Nat2Z.id, nth_error_map, (nth_error_nth' _ O) by (rewrite seq_length; lia). rewrite seq_nth by lia. reflexivity.
  - intros x Hx. apply in_map_iff in Hx. destruct Hx as (k & <- & _). rewrite Z.mod_1_r. rewrite andb_true_r, andb_true_r. apply Z.leb_le. lia.
Qed.
Lemma full_kept : Z.of_nat (length (positions N None None None)) = N.
Proof.
  unfold positions. rewrite PyValues.filter_all; [now rewrite map_length, seq_length, Nat2Z.id|].
  intros x Hx. apply in_map_iff in Hx. destruct Hx as (k & <- & _). rewrite Z.mod_1_r. rewrite andb_true_r, andb_true_r. apply Z.leb_le. lia.
Qed.
Definition grid (f : nat -> nat -> num) : list num := map (fun o => f (Z.to_nat (nth 0 o 0)) (Z.to_nat (nth 1 o 0))) (all_idx [N; N]).
Definition get2 (l : list num) (i j : nat) : num := nth (i * n + j) l 0%Qc.
Lemma in_square o : In o (all_idx [N; N]) -> exists i j, o = [Z.of_nat i; Z.of_nat j] /\ (i < n)%nat /\ (j < n)%nat.
Proof.
  intros H. apply in_all_idx in H. inversion H as [|? x ? t H1 H2]; subst. inversion H2 as [|? y ? t' H3 H4]; subst. inversion H4; subst.
  exists (Z.to_nat x), (Z.to_nat y). split; [f_equal; [lia|f_equal; lia]|lia].
Qed.
Lemma rank2 (i j : nat) : (j < n)%nat -> Z.to_nat (rank [N; N] [Z.of_nat i; Z.of_nat j]) = (i * n + j)%nat.
Proof. intros H. cbn. nia. Qed.
Lemma read2 (l : list num) i j : length l = (n * n)%nat -> (i < n)%nat -> (j < n)%nat -> nth_error l (i * n + j) = Some (get2 l i j).
Proof. intros L Hi Hj. unfold get2. apply nth_error_nth'. rewrite L. nia. Qed.
Lemma grid_len f : length (grid f) = (n * n)%nat.
Proof. unfold grid. rewrite map_length. apply Nat2Z.inj. rewrite all_idx_len by (repeat constructor; lia). cbn [prod]. lia. Qed.
Lemma grid_get f i j : (i < n)%nat -> (j < n)%nat -> get2 (grid f) i j = f i j.
Proof.
  intros Hi Hj. unfold get2. apply nth_error_nth. unfold grid. rewrite nth_error_map.
  assert (R : in_range [N; N] [Z.of_nat i; Z.of_nat j]) by (repeat constructor; lia).
  pose proof (nth_all_idx _ _ R) as E. rewrite rank2 in E by exact Hj. rewrite E. cbn [option_map nth]. now rewrite !Nat2Z.id.
Qed.

(** Rows, then columns, and the other way. *)
Lemma rows_npy (l : list num) : length l = (n * n)%nat -> npy [N; N] [NArr p; sl] n l = Some (grid (fun i j => get2 l (at_p i) j)).
Proof.
  intros L. unfold npy, npy_shape. cbn [existsb is_array orb kept]. change (array_axis [NArr p; sl]) with O. unfold ins. cbn [firstn skipn app]. rewrite full_kept.
  unfold grid. apply PyValues.all_some_map. intros o Ho. destruct (in_square o Ho) as (i & j & -> & Hi & Hj).
  cbn [nth del firstn skipn app]. rewrite !Nat2Z.id. unfold element. cbn [source]. rewrite Nat2Z.id. destruct (at_p_ok i Hi) as (x & -> & -> & Hk).
  cbn [hd]. rewrite Nat2Z.id, full_positions by exact Hj. cbn [option_map]. rewrite rank2 by exact Hj. now apply read2.
Qed.
Lemma cols_npy (l : list num) : length l = (n * n)%nat -> npy [N; N] [sl; NArr p] n l = Some (grid (fun i j => get2 l i (at_p j))).
Proof.
  intros L. unfold npy, npy_shape. cbn [existsb is_array orb kept]. change (array_axis [sl; NArr p]) with 1%nat. rewrite full_kept. unfold ins. cbn [firstn skipn app].
  unfold grid. apply PyValues.all_some_map. intros o Ho. destruct (in_square o Ho) as (i & j & -> & Hi & Hj).
  cbn [nth del firstn skipn app]. rewrite !Nat2Z.id. unfold element. cbn [source hd tl]. rewrite !Nat2Z.id, full_positions by exact Hi. destruct (at_p_ok j Hj) as (x & -> & -> & Hk).
  cbn [option_map]. rewrite rank2 by exact Hk. now apply read2.
Qed.
Hypothesis LA : length A = (n * n)%nat.
Lemma perm_grid : perm_fun n 2 [A; p] = Some (grid (fun i j => get2 A (at_p i) (at_p j))).
Proof.
  unfold perm_fun. assert (E : all_some (map (below n) p) = Some (map at_p (seq 0 n))).
  { rewrite <- Lp at 2. assert (G : forall i, (i < length p)%nat -> exists x, nth_error p i = Some x /\ below n x = Some (at_p i)).
    { intros i Hi. destruct (at_p_ok i ltac:(lia)) as (x & H1 & H2 & _). eauto. }
    revert G. generalize at_p. clear. induction p as [|x l IH]; intros f G; [reflexivity|]. cbn [map all_some length seq].
    destruct (G O ltac:(cbn; lia)) as (y & E1 & E2). injection E1 as <-. rewrite E2. rewrite (IH (fun i => f (S i))).
    - f_equal. f_equal. now rewrite <- seq_shift, map_map.
    - intros i Hi. exact (G (S i) ltac:(cbn; lia)). }
  rewrite E. rewrite LA, map_length, seq_length, Nat.eqb_refl. replace (n ^ 2)%nat with (n * n)%nat by (cbn; lia). rewrite Nat.eqb_refl. cbn [andb repeat]. f_equal.
  unfold grid. apply map_ext_in. intros o Ho. destruct (in_square o Ho) as (i & j & -> & Hi & Hj). cbn [map nth]. rewrite !Nat2Z.id.
  assert (S : forall q, (q < n)%nat -> nth q (map at_p (seq 0 n)) O = at_p q).
  { intros q Hq. rewrite (nth_indep _ _ (at_p O)) by (rewrite map_length, seq_length; exact Hq). rewrite map_nth, seq_nth by exact Hq. reflexivity. }
  rewrite !S by assumption. destruct (at_p_ok j Hj) as (_ & _ & _ & Hk). rewrite rank2 by exact Hk. reflexivity.
Qed.
Lemma rows_adv : adv_fun [N; N] 0 [true; false] [A; p] = npy [N; N] [NArr p; sl] n A.
Proof.
  rewrite rows_npy by exact LA. unfold adv_fun, shape_now. destruct (Z.ltb_spec N 0); [lia|]. cbn [map forallb length pick Bool.eqb Nat.add Nat.eqb andb]. rewrite !Nat2Z.id. change (result_axis [true; false]) with O.
  rewrite Lp. assert (C : all_some (map (coords [n] [p]) (seq 0 n)) = Some (map (fun i => [Z.of_nat (at_p i)]) (seq 0 n))).
  { apply PyValues.all_some_map. intros i Hi. apply in_seq in Hi. unfold coords. cbn [combine map fst snd all_some]. destruct (at_p_ok i ltac:(lia)) as (x & -> & -> & _). reflexivity. }
  rewrite C. unfold ins, grid. cbn [firstn skipn app]. apply PyValues.all_some_map. intros o Ho. destruct (in_square o Ho) as (i & j & -> & Hi & Hj).
  cbn [nth del firstn skipn app]. rewrite !Nat2Z.id.
  rewrite (nth_indep _ _ [Z.of_nat (at_p O)]) by (rewrite map_length, seq_length; exact Hi). rewrite (map_nth (fun i => [Z.of_nat (at_p i)])), seq_nth by exact Hi.
  cbn [merge hd tl Nat.add]. rewrite rank2 by exact Hj. destruct (at_p_ok i Hi) as (_ & _ & _ & Hk). now apply read2.
Qed.
Lemma cols_adv : adv_fun [N; N] 0 [false; true] [A; p] = npy [N; N] [sl; NArr p] n A.
Proof.
  rewrite cols_npy by exact LA. unfold adv_fun, shape_now. destruct (Z.ltb_spec N 0); [lia|]. cbn [map forallb length pick Bool.eqb Nat.add Nat.eqb andb]. rewrite !Nat2Z.id. change (result_axis [false; true]) with 1%nat.
  rewrite Lp. assert (C : all_some (map (coords [n] [p]) (seq 0 n)) = Some (map (fun i => [Z.of_nat (at_p i)]) (seq 0 n))).
  { apply PyValues.all_some_map. intros i Hi. apply in_seq in Hi. unfold coords. cbn [combine map fst snd all_some]. destruct (at_p_ok i ltac:(lia)) as (x & -> & -> & _). reflexivity. }
  rewrite C. unfold ins, grid. cbn [firstn skipn app]. apply PyValues.all_some_map. intros o Ho. destruct (in_square o Ho) as (i & j & -> & Hi & Hj).
  cbn [nth del firstn skipn app]. rewrite !Nat2Z.id.
  rewrite (nth_indep _ _ [Z.of_nat (at_p O)]) by (rewrite map_length, seq_length; exact Hj). rewrite (map_nth (fun i => [Z.of_nat (at_p i)])), seq_nth by exact Hj.
  cbn [merge hd tl Nat.add]. destruct (at_p_ok j Hj) as (_ & _ & _ & Hk). rewrite rank2 by exact Hk. now apply read2.
Qed.
Lemma rows_cols : exists v w, npy [N; N] [NArr p; sl] n A = Some v /\ npy [N; N] [sl; NArr p] n v = Some w /\ perm_fun n 2 [A; p] = Some w.
Proof.
  eexists _, _. split; [apply rows_npy; exact LA|]. split; [apply cols_npy; apply grid_len|]. rewrite perm_grid. f_equal. unfold grid at 1 2. apply map_ext_in. intros o Ho.
  destruct (in_square o Ho) as (i & j & -> & Hi & Hj). cbn [nth]. rewrite !Nat2Z.id. destruct (at_p_ok j Hj) as (_ & _ & _ & Hk). now rewrite grid_get.
Qed.
Lemma cols_rows : exists v w, npy [N; N] [sl; NArr p] n A = Some v /\ npy [N; N] [NArr p; sl] n v = Some w /\ perm_fun n 2 [A; p] = Some w.
Proof.
  eexists _, _. split; [apply cols_npy; exact LA|]. split; [apply rows_npy; apply grid_len|]. rewrite perm_grid. f_equal. unfold grid at 1 2. apply map_ext_in. intros o Ho.
  destruct (in_square o Ho) as (i & j & -> & Hi & Hj). cbn [nth]. rewrite !Nat2Z.id. destruct (at_p_ok i Hi) as (_ & _ & _ & Hk). now rewrite grid_get.
Qed.
End Square.

Lemma perm_symbol m dv a z ps n ct A p y m' : nth_error (p_syms m) a = Some (Sym (KConst A) [] [Z.of_nat n; Z.of_nat n] ct) ->
  length A = (n * n)%nat -> yields m dv z p -> perm_fun n 2 [A; p] = Some ps -> permutation a z m = Ok (y, m') -> yields m' dv y ps.
Proof.
  intros Ha La Hz P E. unfold permutation, bind in E. unfold look at 1 in E. rewrite Ha in E. unfold look in E. destruct (nth_error (p_syms m) z) as [t|] eqn:Et; [|discriminate].
  unfold lift, emit in E. cbn [s_cls s_shape] in E. destruct (perm_new _ _ _ _ _) as [u| |]; cbn [rbind] in E; [|discriminate..]. injection E as <- <-.
  eapply y_op with (ins := [A; p]); [cbn [p_syms]; rewrite nth_error_app2, Nat.sub_diag by lia; reflexivity|reflexivity| |].
  - cbn [s_pred]. constructor; [|constructor; [now apply yields_app|constructor]]. apply yields_app. eapply y_op with (ins := []); [exact Ha|reflexivity|constructor|reflexivity].
  - cbn [s_cls s_pred shapes_of map meaning]. rewrite (shape_app _ _ _ _ _ _ Ha). unfold shape_at. rewrite Ha. cbn [s_shape hd length]. rewrite Nat2Z.id. exact P.
Qed.
