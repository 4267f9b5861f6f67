From Verif Require Import Base Num SliceModel ShapeSpec ShapeProofs SliceSpec BasicModel BasicSpec BasicProofs ViewSpec ViewProofs2 PermSpec AdvSpec AdvProofs AdvProofs12 NodeSpec StateDataModel PyModel PySpec GetSpec GetProofs.
Local Open Scope Z_scope.

Lemma below_zq n z : 0 <= z < Z.of_nat n -> below n (zq z) = Some (Z.to_nat z).
Proof.
  intros H. unfold below. destruct (find _ (seq 0 n)) as [i|] eqn:E.
  - apply find_some in E. destruct E as [_ E]. destruct (qeqb_spec (zq z) (zq (Z.of_nat i))) as [Q|]; [|discriminate]. apply zq_inj in Q. f_equal. lia.
  - assert (I : In (Z.to_nat z) (seq 0 n)) by (apply in_seq; lia). apply (find_none _ _ E) in I.
    rewrite Z2Nat.id in I by lia. destruct (qeqb_spec (zq z) (zq z)); congruence.
Qed.
Lemma at_entry_some n sh ix b j : axes sh ix b -> inside n sh ix -> (j < n)%nat -> exists cs, at_entry sh ix j = Some cs.
Proof.
  induction 1 as [|d k i sh ix b Hd Hx H IH]; intros F L; [now exists []|]. inversion F as [|? ? ? ? F1 F2]; subst. destruct (IH F2 L) as [cs E].
  destruct k as [z|a1 a2 a3|v]; cbn [at_entry]; [eauto..|]. destruct F1 as [F0 F1].
  destruct (nth_error v j) as [x|] eqn:Ev; [|apply nth_error_None in Ev; lia].
  rewrite Forall_forall in F1. destruct (F1 x (nth_error_In _ _ Ev)) as (z & Hz & ->). rewrite below_zq by lia. rewrite E. cbn. eauto.
Qed.
(** The coordinates that the gathering uses. *)
Lemma coords_at sh ix b j : axes sh ix b ->
  coords (pick true (spec_of ix) (map Z.to_nat (sel_shape sh b))) (entries_of ix) j = at_entry sh ix j.
Proof.
  induction 1 as [|d k i sh ix b Hd Hx H IH]; [reflexivity|].
  destruct k as [z|a1 a2 a3|v], i as [z'|s]; cbn [axis] in Hx; try contradiction; cbn [spec_of entries_of flat_map app sel_shape map pick Bool.eqb at_entry];
    fold (spec_of ix) (entries_of ix); auto.
  unfold coords in *. cbn [combine map fst snd all_some]. rewrite Hx, zseq_len by exact Hd. rewrite IH.
  destruct (nth_error v j) as [x|]; [|reflexivity]. destruct (below (Z.to_nat d) x) as [p|]; [|reflexivity]. cbn [option_map].
  destruct (at_entry sh ix j); reflexivity.
Qed.
Lemma spec_axis ix : array_axis (filter (fun i => match i with NInt _ => false | _ => true end) ix) = result_axis (spec_of ix).
Proof. unfold array_axis. f_equal. induction ix as [|[z|a b c|v] ix IH]; cbn; [reflexivity|exact IH|f_equal; exact IH|f_equal; exact IH]. Qed.
Lemma count_entries sh ix b : axes sh ix b -> length (entries_of ix) = length (pick true (spec_of ix) (sel_shape sh b)).
Proof.
  induction 1 as [|d k i sh ix b Hd Hx H IH]; [reflexivity|]. destruct k, i; cbn [axis] in Hx; try contradiction; cbn; auto.
Qed.
Lemma entries_len n sh ix : inside n sh ix -> Forall (fun l => length l = n) (entries_of ix).
Proof. induction 1 as [|d k sh ix H1 H IH]; [constructor|]. destruct k; cbn; auto. constructor; [apply H1|exact IH]. Qed.
Lemma all_some_at {X Y} (f : X -> option Y) l r i x : all_some (map f l) = Some r -> nth_error l i = Some x -> exists y, f x = Some y /\ nth_error r i = Some y.
Proof.
  revert r i; induction l as [|a l IH]; intros r [|i] E N; try discriminate; cbn in *; destruct (f a) as [y|] eqn:Ef; try discriminate;
    destruct (all_some (map f l)) as [t|] eqn:Et; try discriminate; injection E as <-.
  - injection N as <-. exists y. auto.
  - exact (IH t i eq_refl N).
Qed.
Lemma result_axis_le spec {X} (sh : list X) : length spec = length sh -> (result_axis spec <= length (pick false spec sh))%nat.
Proof.
  intros L. unfold result_axis. destruct (separatedb spec); [lia|]. revert sh L; induction spec as [|[] spec IH]; intros [|x sh] L; try discriminate; cbn; try lia.
  specialize (IH sh ltac:(now injection L)). lia.
Qed.

(** With arrays: gathering from the view. *)
Lemma adv_value sh ix b n (a w : list num) : axes sh ix b -> Z.of_nat (length a) = prod sh -> inside n sh ix -> existsb is_array ix = true -> undisturbed ix ->
  all_some (map (fun o => nth_error a (Z.to_nat o)) (selected sh b)) = Some w ->
  exists v, npy sh ix n a = Some v /\ adv_fun (sel_shape sh b) 0 (spec_of ix) (w :: entries_of ix) = Some v.
Proof.
  intros H La F E U W. unfold undisturbed in U. rewrite spec_axis in U.
  pose proof (kept_pick _ _ _ H) as K. pose proof (spec_len _ _ _ H) as Ls. pose proof (sel_nonneg sh b) as Nn.
  set (k := result_axis (spec_of ix)) in *.
  assert (Kle : (k <= length (kept sh ix))%nat) by (rewrite <- K; apply result_axis_le; exact Ls).
  assert (S : forall o, In o (PermSpec.all_idx (ins k (Z.of_nat n) (kept sh ix))) ->
            exists cs c y, at_entry sh ix (Z.to_nat (nth k o 0%Z)) = Some cs /\ (Z.to_nat (nth k o 0%Z) < n)%nat /\ source sh ix (Z.to_nat (nth k o 0%Z)) (del k o) = Some c /\
              nth_error a (Z.to_nat (rank sh c)) = Some y /\ nth_error w (Z.to_nat (rank (sel_shape sh b) (merge (spec_of ix) cs (del k o)))) = Some y).
  { intros o Ho. apply AdvProofs.in_all_idx in Ho. apply in_range_nth in Ho; [|exact Kle]. destruct Ho as [Hj Hs].
    assert (Lj : (Z.to_nat (nth k o 0%Z) < n)%nat) by lia.
    destruct (at_entry_some n _ _ _ _ H F Lj) as [cs Ecs]. destruct (source_selected _ _ _ _ H cs _ Ecs Hs) as (c & C1 & C2 & C3 & C4).
    destruct (all_some_at _ _ _ _ _ W C4) as (y & Y1 & Y2). exists cs, c, y. auto. }
  destruct (all_some_total (fun o => element sh ix a (Z.to_nat (nth k o 0%Z)) (del k o)) (PermSpec.all_idx (ins k (Z.of_nat n) (kept sh ix)))) as [v Hv].
  { intros o Ho. destruct (S o Ho) as (cs & c & y & _ & _ & C & Y & _). unfold element. rewrite C. eauto. }
  exists v. split; [unfold npy, npy_shape; rewrite E, U; exact Hv|].
  pose proof (entries_len _ _ _ F) as Le. pose proof (count_entries _ _ _ H) as Lc.
  assert (Ne : entries_of ix <> []).
  { clear -E. induction ix as [|[z|x y z|v] ix IH]; cbn in *; try discriminate; auto. }
  unfold adv_fun. destruct (entries_of ix) as [|l0 ls] eqn:Ee; [contradiction|]. pose proof (Forall_inv Le) as L0. pose proof (Forall_inv_tail Le) as Ll.
  assert (Sn : shape_now (sel_shape sh b) (length w) = sel_shape sh b).
  { destruct (sel_shape sh b) as [|d t]; [reflexivity|]. inversion Nn; subst. cbn. destruct (Z.ltb_spec d 0); [lia|reflexivity]. }
  assert (Bd : match sel_shape sh b with d :: t => (if d <? 0 then O else Z.to_nat d) :: map Z.to_nat t | [] => [] end = map Z.to_nat (sel_shape sh b)).
  { destruct (sel_shape sh b) as [|d t]; [reflexivity|]. inversion Nn; subst. cbn. destruct (Z.ltb_spec d 0); [lia|reflexivity]. }
  rewrite Sn, Bd. cbv zeta. fold k. rewrite L0.
  assert (G1 : forallb (fun l => (length l =? n)%nat) ls = true).
  { apply forallb_forall. intros l Hl. rewrite Forall_forall in Ll. apply Nat.eqb_eq. apply Ll. exact Hl. }
  rewrite G1. cbn [length] in Lc. replace (length ls + 1)%nat with (Datatypes.S (length ls)) by (clear; lia). rewrite Lc, Nat.eqb_refl. cbn [andb].
  rewrite <- Ee in *.
  destruct (all_some_total (coords (pick true (spec_of ix) (map Z.to_nat (sel_shape sh b))) (entries_of ix)) (seq 0 n)) as [css Hcss].
  { intros j Hj. apply in_seq in Hj. rewrite (coords_at _ _ _ _ H). apply (at_entry_some n _ _ _ _ H F). lia. }
  rewrite Hcss, K. rewrite <- Hv. f_equal. apply map_ext_in. intros o Ho. destruct (S o Ho) as (cs & c & y & C1 & C2 & C3 & Y1 & Y2).
  assert (Nj : nth_error (seq 0 n) (Z.to_nat (nth k o 0%Z)) = Some (Z.to_nat (nth k o 0%Z))).
  { rewrite (nth_error_nth' _ O) by (rewrite seq_length; lia). rewrite seq_nth by lia. reflexivity. }
  destruct (all_some_at _ _ _ _ _ Hcss Nj) as (cs' & D1 & D2). rewrite (coords_at _ _ _ _ H), C1 in D1. injection D1 as <-.
  rewrite (nth_error_nth _ _ [] D2), Y2. unfold element. rewrite C3, Y1. reflexivity.
Qed.
