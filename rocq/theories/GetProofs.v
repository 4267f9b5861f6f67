From Verif Require Import Base Num SliceModel ShapeSpec ShapeProofs SliceSpec BasicModel BasicSpec BasicProofs ViewSpec ViewProofs2 PermSpec AdvSpec AdvProofs AdvProofs12 NodeSpec PyModel PySpec GetSpec.
Local Open Scope Z_scope.

(** The axes of an array with what NumPy and the view make of them. *)
Definition axis (d : Z) (k : nidx) (i : sidx) : Prop :=
  match k, i with
  | NInt z, IInt z' => z = z' /\ - d <= z < d
  | NSlice a b c, ISlice s => positions d a b c = chosen d (ISlice s)
  | NArr _, ISlice s => chosen d (ISlice s) = zseq d
  | _, _ => False
  end.
Inductive axes : list Z -> list nidx -> list sidx -> Prop :=
| ax_nil : axes [] [] []
| ax_cons d k i sh ix b : 0 <= d -> axis d k i -> axes sh ix b -> axes (d :: sh) (k :: ix) (i :: b).

Definition spec_of (ix : list nidx) : list bool := flat_map (fun i => match i with NInt _ => [] | NSlice _ _ _ => [false] | NArr _ => [true] end) ix.
Definition entries_of (ix : list nidx) : list (list num) := flat_map (fun i => match i with NArr v => [v] | _ => [] end) ix.
Fixpoint at_entry (sh : list Z) (ix : list nidx) (j : nat) : option (list Z) :=
  match sh, ix with
  | d :: sh', NArr v :: r =>
      match nth_error v j with
      | Some x => match below (Z.to_nat d) x with Some i => option_map (cons (Z.of_nat i)) (at_entry sh' r j) | None => None end
      | None => None
      end
  | _ :: sh', _ :: r => at_entry sh' r j
  | _, _ => Some []
  end.

Lemma zseq_len d : 0 <= d -> Z.of_nat (length (zseq d)) = d.
Proof. intros H. unfold zseq. rewrite map_length, seq_length. lia. Qed.
Lemma zseq_nth d i : 0 <= i < d -> nth_error (zseq d) (Z.to_nat i) = Some i.
Proof.
  intros H. unfold zseq. rewrite nth_error_map. rewrite (nth_error_nth' _ O) by (rewrite seq_length; lia).
  rewrite seq_nth by lia. cbn. f_equal. lia.
Qed.
Lemma nth_flat_map {X Y} (f : X -> list Y) c l : (forall x, length (f x) = c) -> forall i r x, nth_error l i = Some x -> (r < c)%nat ->
  nth_error (flat_map f l) (i * c + r) = nth_error (f x) r.
Proof.
  intros H. induction l as [|y l IH]; intros [|i] r x E Hr; try discriminate; cbn [flat_map].
  - injection E as ->. rewrite nth_error_app1 by (rewrite H; lia). reflexivity.
  - rewrite nth_error_app2 by (rewrite H; lia). rewrite H. replace (S i * c + r - c)%nat with (i * c + r)%nat by lia. now apply IH.
Qed.
Lemma below_bound n x i : below n x = Some i -> (i < n)%nat.
Proof. unfold below. intros H. apply find_some in H. destruct H as [H _]. apply in_seq in H. lia. Qed.
Lemma in_positions d a b c x : In x (positions d a b c) -> 0 <= x < d.
Proof. unfold positions. intros H. apply filter_In in H. destruct H as [H _]. apply in_map_iff in H. destruct H as (i & <- & H). apply in_seq in H. lia. Qed.

Lemma axes_accepts sh ix b : axes sh ix b -> Forall (fun i => match i with ISlice s => 0 < sstep s | _ => True end) b -> accepts sh b.
Proof.
  induction 1 as [|d k i sh ix b Hd Hx H IH]; intros F; [constructor|]. inversion F; subst. constructor; [|now apply IH].
  destruct k, i; cbn in *; try contradiction; try assumption; intuition lia.
Qed.
Lemma sel_len sh ix b : axes sh ix b -> Z.of_nat (length (selected sh b)) = prod (sel_shape sh b).
Proof.
  induction 1 as [|d k i sh ix b Hd Hx H IH]; [reflexivity|]. cbn [selected].
  rewrite (flat_map_const_len _ _ (length (selected sh b))) by (intros; apply map_length).
  destruct i as [z|s]; cbn [sel_shape prod chosen length]; [lia|]. nia.
Qed.
Lemma kept_pick sh ix b : axes sh ix b -> pick false (spec_of ix) (sel_shape sh b) = kept sh ix.
Proof.
  induction 1 as [|d k i sh ix b Hd Hx H IH]; [reflexivity|]. destruct k, i; cbn [axis] in Hx; try contradiction; cbn [spec_of flat_map app sel_shape pick Bool.eqb kept]; auto.
  fold (spec_of ix). rewrite IH, Hx. reflexivity.
Qed.

(** The element NumPy shows is the one that the view's element is. *)
Lemma source_selected sh ix b j : axes sh ix b -> forall cs sub, at_entry sh ix j = Some cs -> in_range (kept sh ix) sub ->
  exists c, source sh ix j sub = Some c /\ in_range sh c /\ in_range (sel_shape sh b) (merge (spec_of ix) cs sub) /\
    nth_error (selected sh b) (Z.to_nat (rank (sel_shape sh b) (merge (spec_of ix) cs sub))) = Some (rank sh c).
Proof.
  induction 1 as [|d k i sh ix b Hd Hx H IH]; intros cs sub E R.
  - exists []. cbn in *. injection E as <-. repeat split; constructor.
  - pose proof (sel_len _ _ _ H) as Ls.
    assert (STEP : forall p c cs' sub' q, 0 <= p < d -> nth_error (chosen d i) (Z.to_nat q) = Some p -> 0 <= q ->
               in_range sh c -> in_range (sel_shape sh b) (merge (spec_of ix) cs' sub') ->
               nth_error (selected sh b) (Z.to_nat (rank (sel_shape sh b) (merge (spec_of ix) cs' sub'))) = Some (rank sh c) ->
               nth_error (selected (d :: sh) (i :: b)) (Z.to_nat (q * prod (sel_shape sh b) + rank (sel_shape sh b) (merge (spec_of ix) cs' sub'))) = Some (rank (d :: sh) (p :: c))).
    { intros p c cs' sub' q Hp Hq Hq0 Rc Rm N. pose proof (rank_bounds _ _ Rm) as B. rewrite rank_cons by (apply in_range_len; exact Rc).
      cbn [selected]. replace (Z.to_nat _) with (Z.to_nat q * length (selected sh b) + Z.to_nat (rank (sel_shape sh b) (merge (spec_of ix) cs' sub')))%nat by nia.
      rewrite (nth_flat_map _ (length (selected sh b)) _ ltac:(intros; apply map_length) _ _ p Hq) by lia.
      rewrite nth_error_map, N. reflexivity. }
    destruct k as [z|a1 a2 a3|v], i as [z'|s]; cbn [axis] in Hx; try contradiction.
    + destruct Hx as [<- Hz]. cbn [at_entry kept] in E, R. destruct (IH cs sub E R) as (c & C1 & C2 & C3 & C4).
      assert (P : 0 <= py_norm d z < d) by (unfold py_norm; destruct (Z.ltb_spec z 0); lia).
      exists (py_norm d z :: c). cbn [source spec_of flat_map app sel_shape]. fold (spec_of ix).
      destruct (Z.leb_spec (-d) z); [|lia]. destruct (Z.ltb_spec z d); [|lia]. cbn [andb]. rewrite C1. split; [reflexivity|].
      split; [now constructor|]. split; [exact C3|].
      exact (STEP (py_norm d z) c cs sub 0 P eq_refl ltac:(lia) C2 C3 C4).
    + cbn [at_entry kept] in E, R. inversion R as [|? q ? sub' Hq R']; subst. destruct (IH cs sub' E R') as (c & C1 & C2 & C3 & C4).
      destruct (nth_error (positions d a1 a2 a3) (Z.to_nat q)) as [p|] eqn:Ep; [|apply nth_error_None in Ep; lia].
      pose proof (in_positions _ _ _ _ _ (nth_error_In _ _ Ep)) as P.
      exists (p :: c). cbn [source hd tl]. rewrite Ep, C1. split; [reflexivity|]. split; [now constructor|].
      cbn [spec_of flat_map app sel_shape merge hd tl]. fold (spec_of ix). rewrite Hx in *. split; [constructor; [exact Hq|exact C3]|].
      rewrite rank_cons by (apply in_range_len; exact C3). apply STEP; auto; lia.
    + cbn [at_entry kept] in E, R. destruct (nth_error v j) as [x|] eqn:Ev; [|discriminate]. destruct (below (Z.to_nat d) x) as [p|] eqn:Eb; [|discriminate].
      destruct (at_entry sh ix j) as [cs'|] eqn:Ee; [|discriminate]. injection E as <-. destruct (IH cs' sub eq_refl R) as (c & C1 & C2 & C3 & C4).
      pose proof (below_bound _ _ _ Eb) as P. exists (Z.of_nat p :: c). cbn [source]. rewrite Ev, Eb, C1. split; [reflexivity|].
      split; [constructor; [lia|exact C2]|]. cbn [spec_of flat_map app sel_shape merge hd tl]. fold (spec_of ix). rewrite Hx, zseq_len by exact Hd.
      split; [constructor; [lia|exact C3]|]. rewrite rank_cons by (apply in_range_len; exact C3). apply STEP; auto; try lia. rewrite Hx. apply zseq_nth. lia.
Qed.

Lemma at_entry_none sh ix b j : axes sh ix b -> existsb is_array ix = false -> at_entry sh ix j = Some [].
Proof. induction 1 as [|d k i sh ix b Hd Hx H IH]; intros E; [reflexivity|]. cbn in E. destruct k; cbn in E; [auto|auto|discriminate]. Qed.
Lemma merge_none ix : existsb is_array ix = false -> forall sub, length sub = length (spec_of ix) -> merge (spec_of ix) [] sub = sub.
Proof.
  induction ix as [|k ix IH]; intros E sub L; [now destruct sub|]. destruct k; cbn in E; [exact (IH E sub L)| |discriminate].
  cbn in *. destruct sub as [|x sub]; [discriminate|]. cbn. f_equal. apply IH; [exact E|]. now injection L.
Qed.
Lemma spec_len sh ix b : axes sh ix b -> length (spec_of ix) = length (sel_shape sh b).
Proof. induction 1 as [|d k i sh ix b Hd Hx H IH]; [reflexivity|]. destruct k, i; cbn in *; try contradiction; auto. Qed.
Lemma kept_none sh ix b : axes sh ix b -> existsb is_array ix = false -> kept sh ix = sel_shape sh b.
Proof.
  induction 1 as [|d k i sh ix b Hd Hx H IH]; intros E; [reflexivity|]. destruct k, i; cbn [axis] in Hx; cbn in E; try contradiction; try discriminate; cbn [kept sel_shape]; auto.
  rewrite IH by exact E. now rewrite Hx.
Qed.
Lemma sel_nonneg sh b : Forall (fun d => 0 <= d) (sel_shape sh b).
Proof. revert b; induction sh as [|d sh IH]; intros [|[z|s] b]; cbn [sel_shape]; try constructor; auto. lia. Qed.
Lemma axes_nonneg sh ix b : axes sh ix b -> Forall (fun d => 0 <= d) sh.
Proof. induction 1; constructor; auto. Qed.
Lemma ext_nth {X} (l1 l2 : list X) : length l1 = length l2 -> (forall i x, nth_error l2 i = Some x -> nth_error l1 i = Some x) -> l1 = l2.
Proof.
  revert l2; induction l1 as [|x l1 IH]; intros [|y l2] L H; try discriminate; [reflexivity|].
  f_equal; [specialize (H O y eq_refl); cbn in H; congruence|]. apply IH; [now injection L|]. intros i z Hz. exact (H (S i) z Hz).
Qed.

(** Without arrays. *)
Lemma basic_value sh ix b n (a : list num) : axes sh ix b -> Z.of_nat (length a) = prod sh -> existsb is_array ix = false ->
  exists w, npy sh ix n a = Some w /\ all_some (map (fun o => nth_error a (Z.to_nat o)) (selected sh b)) = Some w.
Proof.
  intros H La E. pose proof (kept_none _ _ _ H E) as K.
  assert (S : forall o, In o (all_idx (sel_shape sh b)) -> exists c, source sh ix 0 o = Some c /\ in_range sh c /\
             nth_error (selected sh b) (Z.to_nat (rank (sel_shape sh b) o)) = Some (rank sh c)).
  { intros o Ho. apply AdvProofs.in_all_idx in Ho. destruct (source_selected _ _ _ 0%nat H [] o (at_entry_none _ _ _ _ H E)) as (c & C1 & C2 & _ & C4); [now rewrite K|].
    exists c. rewrite merge_none in C4; auto. rewrite (spec_len _ _ _ H). symmetry. apply in_range_len. exact Ho. }
  assert (EQ : selected sh b = map (fun o => match source sh ix 0 o with Some c => rank sh c | None => 0 end) (PermSpec.all_idx (sel_shape sh b))).
  { apply ext_nth.
    - rewrite map_length. apply Nat2Z.inj. rewrite (sel_len _ _ _ H). symmetry. apply AdvProofs.all_idx_len. apply sel_nonneg.
    - intros i r Hr. rewrite nth_error_map in Hr. destruct (nth_error (PermSpec.all_idx (sel_shape sh b)) i) as [o|] eqn:Eo; [|discriminate]. injection Hr as <-.
      assert (Li : (i < length (PermSpec.all_idx (sel_shape sh b)))%nat) by (apply nth_error_Some; congruence).
      destruct (AdvProofs.all_idx_nth _ _ Li) as (o' & E1 & E2 & E3). assert (o' = o) by congruence. subst o'.
      destruct (S o (nth_error_In _ _ Eo)) as (c & -> & _ & C). rewrite E3, Nat2Z.id in C. exact C. }
  unfold npy, npy_shape. rewrite E, K. rewrite EQ, map_map.
  destruct (all_some_total (fun o => element sh ix a 0 o) (PermSpec.all_idx (sel_shape sh b))) as [w Hw].
  { intros o Ho. destruct (S o Ho) as (c & C1 & C2 & _). unfold element. rewrite C1. pose proof (rank_bounds _ _ C2) as B.
    destruct (nth_error a (Z.to_nat (rank sh c))) as [y|] eqn:Ey; [eauto|]. apply nth_error_None in Ey. lia. }
  exists w. split; [exact Hw|]. rewrite <- Hw. f_equal. apply map_ext_in. intros o Ho. destruct (S o Ho) as (c & C1 & _). unfold element. now rewrite C1.
Qed.
