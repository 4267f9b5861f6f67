(** Vehicle routing with time windows: the times the model computes. *)
From Verif Require Import Base Num SliceModel ShapeModel ShapeSpec SliceSpec StateDataModel NodeSpec BinaryModel BasicModel BasicSpec ViewModel ElemModel NaryModel
  ReduceModel BoundsModel PermModel AdvModel NarySpec ReduceSpec BinarySpec ElemSpec PermSpec ViewSpec AdvSpec ProposeSpec PyModel GenModel PySpec GenSpec PyProofs PyValues PyRules
  GenProofs GenProofs2 GenProofs3 GenProofs4 GenProofs5 GenProofs6.
Set Implicit Arguments.

Lemma qmax_nonneg a b : (0 <= b)%Qc -> (0 <= qmax a b)%Qc.
Proof. intros H. unfold qmax. destruct (qltb_spec a b) as [L|L]; [exact H|]. apply Qcnot_lt_le in L. exact (Qcle_trans _ _ _ H L). Qed.
Lemma nth_nonneg l i : nonnegative l -> (0 <= nth i l 0)%Qc.
Proof. intros H. destruct (nth_in_or_default i l 0%Qc) as [Hi| ->]; [|apply Qcle_refl]. unfold nonnegative in H. rewrite Forall_forall in H. now apply H. Qed.
Lemma qplus_nonneg a b : (0 <= a)%Qc -> (0 <= b)%Qc -> (0 <= a + b)%Qc.
Proof. intros; qlra. Qed.
Lemma nth_snoc {A} (l : list A) x d i : length l = i -> nth i (l ++ [x]) d = x.
Proof. intros <-. rewrite app_nth2, Nat.sub_diag by lia. reflexivity. Qed.
Lemma last_nth {A} (l : list A) d : last l d = nth (length l - 1) l d.
Proof.
  induction l as [|a l IH]; [reflexivity|]. destruct l as [|b l]; [reflexivity|]. change (last (a :: b :: l) d) with (last (b :: l) d). rewrite IH.
  cbn [length]. replace (S (S (length l)) - 1) with (S (S (length l) - 1)) by lia. reflexivity.
Qed.

Lemma Forall2_at {A C} (P : A -> C -> Prop) l l' da dc : Forall2 P l l' -> forall i, i < length l -> P (nth i l da) (nth i l' dc).
Proof. induction 1 as [|a c l l' H _ IH]; intros i Hi; [cbn in Hi; lia|]. destruct i as [|i]; [exact H|]. cbn. apply IH. cbn in Hi. lia. Qed.
Lemma Forall2_all {A C} (P : A -> C -> Prop) l l' da dc : length l = length l' -> (forall i, i < length l -> P (nth i l da) (nth i l' dc)) -> Forall2 P l l'.
Proof.
  revert l'; induction l as [|a l IH]; intros [|c l'] E H; try discriminate; constructor; [exact (H 0 ltac:(cbn; lia))|].
  apply IH; [now injection E|]. intros i Hi. exact (H (S i) ltac:(cbn; lia)).
Qed.

(** * The times of leaving *)
Section Leaving.
Variables (T : list (list num)) (open service : list num).
Lemma leaving_length t p l : length (leaving T open service t p l) = length l.
Proof. revert t p; induction l as [|c l IH]; intros t p; cbn; [reflexivity|]. now rewrite IH. Qed.
Lemma leaving_0 t p l : l <> [] -> nth 0 (leaving T open service t p l) 0%Qc = (qmax (t + entry T p (nth 0 l 0%nat)) (nth (nth 0 l 0%nat) open 0) + nth (nth 0 l 0%nat) service 0)%Qc.
Proof. destruct l; [congruence|reflexivity]. Qed.
Lemma leaving_S l : forall t p j, S j < length l -> nth (S j) (leaving T open service t p l) 0%Qc =
  (qmax (nth j (leaving T open service t p l) 0 + entry T (nth j l 0%nat) (nth (S j) l 0%nat)) (nth (nth (S j) l 0%nat) open 0) + nth (nth (S j) l 0%nat) service 0)%Qc.
Proof.
  induction l as [|c l IH]; intros t p j H; [cbn in H; lia|]. cbn [leaving]. cbv zeta. cbn [length] in H. destruct j as [|j].
  - cbn [nth]. rewrite leaving_0 by (destruct l; [cbn in H; lia|discriminate]). reflexivity.
  - cbn [nth]. apply IH. lia.
Qed.
End Leaving.

Section Slots.
Variables (n : nat) (T : list (list num)) (open close service : list num).
Hypothesis HT : matrix (S n) (S n) T.
Hypothesis HT0 : Forall nonnegative T.
Hypothesis Ho : length open = S n.
Hypothesis Hc : length close = S n.
Hypothesis Hs : length service = S n.
Hypothesis Ho0 : nonnegative open.
Hypothesis Hc0 : nonnegative close.
Hypothesis Hs0 : nonnegative service.
Definition x_from : list num := tl (hd [] T) ++ [0%Qc].
Definition x_to : list num := map (hd 0%Qc) (tl T) ++ [0%Qc].
Definition x_cust : list (list num) := map (fun r => tl r ++ [0%Qc]) (tl T) ++ [repeat 0%Qc (S n)].
Definition x_open : list num := tl open ++ [0%Qc].
Definition x_close : list num := tl close ++ [zq 1000000].
Definition x_service : list num := tl service ++ [0%Qc].

Lemma tl_length {A} (l : list A) k : length l = S k -> length (tl l) = k.
Proof. destruct l; cbn; lia. Qed.
Lemma nth_tl_app (l : list num) k i x : length l = S k -> i < k -> nth i (tl l ++ [x]) 0%Qc = nth (S i) l 0%Qc.
Proof. intros H Hi. rewrite app_nth1 by (rewrite (tl_length _ H); lia). apply nth_tl. Qed.
Lemma row_length i : i < S n -> length (nth i T []) = S n.
Proof. intros H. destruct HT as [H1 H2]. apply (@nth_row _ T (S n) i H2). lia. Qed.
Lemma hd_row : hd [] T = nth 0 T [].
Proof. now destruct T. Qed.
Lemma from_in i : i < n -> nth i x_from 0%Qc = entry T 0 (S i).
Proof. intros H. unfold x_from, entry. rewrite hd_row. apply nth_tl_app with n; [apply row_length; lia|exact H]. Qed.
Lemma from_out : nth n x_from 0%Qc = 0%Qc.
Proof. unfold x_from. rewrite hd_row. apply nth_snoc. apply tl_length, row_length. lia. Qed.
Lemma to_in i : i < n -> nth i x_to 0%Qc = entry T (S i) 0.
Proof.
  intros H. unfold x_to. rewrite app_nth1 by (rewrite map_length, (@tl_length _ T n (proj1 HT)); lia). apply nth_hd_col.
Qed.
Lemma to_out : nth n x_to 0%Qc = 0%Qc.
Proof. unfold x_to. apply nth_snoc. rewrite map_length. apply tl_length. exact (proj1 HT). Qed.
Lemma cust_in i j : i < n -> j < n -> entry x_cust i j = entry T (S i) (S j).
Proof.
  intros Hi Hj. unfold entry, x_cust. rewrite app_nth1 by (rewrite map_length, (@tl_length _ T n (proj1 HT)); lia).
  rewrite (nth_indep _ [] ((fun r => tl r ++ [0%Qc]) [])) by (rewrite map_length, (@tl_length _ T n (proj1 HT)); lia).
  rewrite (map_nth (fun r => tl r ++ [0%Qc])), nth_tl. apply nth_tl_app with n; [apply row_length; lia|exact Hj].
Qed.
Lemma cust_out j : entry x_cust n j = 0%Qc.
Proof.
  unfold entry, x_cust. rewrite nth_snoc by (rewrite map_length; apply tl_length; exact (proj1 HT)).
  destruct (nth_in_or_default j (repeat 0%Qc (S n)) 0%Qc) as [H| ->]; [|reflexivity]. now apply repeat_spec in H.
Qed.
Lemma from_len : length x_from = S n.
Proof. unfold x_from. rewrite app_length, hd_row, (@tl_length _ _ n) by (apply row_length; lia). cbn. lia. Qed.
Lemma to_len : length x_to = S n.
Proof. unfold x_to. rewrite app_length, map_length, (@tl_length _ T n (proj1 HT)). cbn. lia. Qed.
Lemma ext_len (l : list num) x : length l = S n -> length (tl l ++ [x]) = S n.
Proof. intros H. rewrite app_length, (tl_length _ H). cbn. lia. Qed.
Lemma cust_matrix : matrix (S n) (S n) x_cust.
Proof.
  unfold x_cust. split.
  - rewrite app_length, map_length, (@tl_length _ T n (proj1 HT)). cbn. lia.
  - apply Forall_app. split; [|constructor; [apply repeat_length|constructor]]. rewrite Forall_map. destruct HT as [_ H]. apply Forall_tl in H.
    eapply Forall_impl; [|exact H]. cbn beta. intros row E. now apply ext_len.
Qed.

(** Stop [i] of route [r]: where it is, where one comes from, and when it is left. *)
Definition at_ (r : list nat) (i : nat) : nat := if i <? length r then nth i r 0 else n.
Definition via (r : list nat) (i : nat) : nat := if i <? length r then nth (i - 1) r 0 else n.
Fixpoint lv (r : list nat) (i : nat) : num :=
  match i with
  | 0 => (qmax (nth (at_ r 0) x_from 0) (nth (at_ r 0) x_open 0) + nth (at_ r 0) x_service 0)%Qc
  | S j => (qmax (lv r j + entry x_cust (via r (S j)) (at_ r (S j))) (nth (at_ r (S j)) x_open 0) + nth (at_ r (S j)) x_service 0)%Qc
  end.
Lemma ext_nonneg l i x : nonnegative l -> (0 <= x)%Qc -> (0 <= nth i (tl l ++ [x]) 0)%Qc.
Proof. intros H Hx. apply nth_nonneg. apply Forall_app. split; [now apply Forall_tl|now repeat constructor]. Qed.
Lemma lv_nonneg r i : (0 <= lv r i)%Qc.
Proof.
  assert (Q0 : (0 <= 0)%Qc) by apply Qcle_refl.
  destruct i; cbn [lv]; (apply qplus_nonneg; [apply qmax_nonneg|]; unfold x_open, x_service; now apply ext_nonneg).
Qed.
Variable r : list nat.
Hypothesis Hr : Forall (fun i => i < n) r.
Let ls := leaving T open service 0%Qc 0 (map S r).
Lemma r_in i : i < length r -> nth i r 0 < n.
Proof. intros H. rewrite Forall_forall in Hr. apply Hr. now apply nth_In. Qed.
Lemma S_nth i : i < length r -> nth i (map S r) 0 = S (nth i r 0).
Proof. intros H. rewrite (nth_indep _ 0 (S 0)) by (now rewrite map_length). apply map_nth. Qed.
Lemma at_in i : i < length r -> at_ r i = nth i r 0.
Proof. intros H. unfold at_. destruct (Nat.ltb_spec i (length r)); [reflexivity|lia]. Qed.
Lemma at_out i : length r <= i -> at_ r i = n.
Proof. intros H. unfold at_. destruct (Nat.ltb_spec i (length r)); [lia|reflexivity]. Qed.
Lemma via_in i : S i < length r -> via r (S i) = nth i r 0.
Proof. intros H. unfold via. destruct (Nat.ltb_spec (S i) (length r)); [|lia]. f_equal. lia. Qed.
Lemma via_out i : length r <= i -> via r i = n.
Proof. intros H. unfold via. destruct (Nat.ltb_spec i (length r)); [lia|reflexivity]. Qed.
Lemma lv_in i : i < length r -> lv r i = nth i ls 0%Qc.
Proof.
  induction i as [|i IH]; intros H; cbn [lv].
  - rewrite at_in by exact H. unfold ls. rewrite leaving_0 by (destruct r; [cbn in H; lia|discriminate]). rewrite S_nth by exact H. pose proof (r_in H) as Hn.
    rewrite from_in by exact Hn. unfold x_open, x_service. rewrite !nth_tl_app with (k := n) by assumption. now rewrite Qcplus_0_l.
  - rewrite at_in, via_in, IH by lia. unfold ls. rewrite leaving_S by (rewrite map_length; lia). rewrite !S_nth by lia.
    pose proof (@r_in i ltac:(lia)) as H1. pose proof (r_in H) as H2. rewrite cust_in by assumption. unfold x_open, x_service.
    rewrite !nth_tl_app with (k := n) by assumption. reflexivity.
Qed.
Lemma lv_out i : length r <= i -> lv r i = last ls 0%Qc.
Proof.
  assert (Eo : nth n x_open 0%Qc = 0%Qc) by (apply nth_snoc, tl_length, Ho).
  assert (Es : nth n x_service 0%Qc = 0%Qc) by (apply nth_snoc, tl_length, Hs).
  assert (El : length ls = length r) by (unfold ls; now rewrite leaving_length, map_length).
  induction i as [|i IH]; intros H; cbn [lv].
  - rewrite at_out by exact H. rewrite from_out, Eo, Es. destruct ls; [|cbn in El; lia]. cbn. unfold qmax. destruct (qltb _ _); ring.
  - rewrite at_out, via_out, cust_out, Eo, Es by exact H. rewrite !Qcplus_0_r, qmax_0 by apply lv_nonneg.
    destruct (Nat.eq_dec (length r) (S i)) as [E|E]; [|apply IH; lia].
    rewrite lv_in by lia. rewrite last_nth, El. f_equal. lia.
Qed.

Definition back_at : nat := if 1 <=? length r then last r 0 else n.
Definition windows_ok (k : nat) : bool := forallb (fun i => qleb (lv r i) (nth (at_ r i) x_close 0%Qc)) (seq 0 k).
Definition back_ok (k : nat) : bool := qleb (lv r (k - 1) + nth back_at x_to 0)%Qc (hd 0%Qc close).
Lemma slots_ok k : 1 <= k -> length r <= k ->
  (windows_ok k = true /\ back_ok k = true <-> on_time T open close service (map S r) /\ (length r < k -> (last ls 0 <= zq 1000000)%Qc)).
Proof.
  intros Hk Hl. unfold windows_ok, back_ok. rewrite forallb_forall.
  assert (El : length ls = length r) by (unfold ls; now rewrite leaving_length, map_length).
  assert (Ec : nth n x_close 0%Qc = zq 1000000) by (apply nth_snoc, tl_length, Hc).
  assert (Eh : hd 0%Qc close = nth 0 close 0%Qc) by (now destruct close).
  assert (Elv : lv r (k - 1) = last ls 0%Qc).
  { destruct (Nat.eq_dec (length r) k) as [E|E]; [|apply lv_out; lia]. rewrite lv_in by lia. rewrite last_nth, El. now rewrite E. }
  rewrite Elv, Eh, qleb_true.
  assert (W : (forall x, In x (seq 0 k) -> qleb (lv r x) (nth (at_ r x) x_close 0%Qc) = true) <->
    Forall2 (fun l c => (l <= nth c close 0)%Qc) ls (map S r) /\ (length r < k -> (last ls 0 <= zq 1000000)%Qc)).
  { split.
    - intros H. split.
      + apply Forall2_all with (da := 0%Qc) (dc := 0); [now rewrite El, map_length|]. intros i Hi. rewrite El in Hi. specialize (H i ltac:(apply in_seq; lia)).
        rewrite qleb_true, lv_in, at_in in H by exact Hi. rewrite S_nth by exact Hi. unfold x_close in H. rewrite nth_tl_app with (k := n) in H; [exact H|exact Hc|now apply r_in].
      + intros Hlt. specialize (H (length r) ltac:(apply in_seq; lia)). rewrite qleb_true, lv_out, at_out, Ec in H by lia. exact H.
    - intros [H1 H2] i Hi. apply in_seq in Hi. apply qleb_true. destruct (Nat.lt_ge_cases i (length r)) as [Hlt|Hge].
      + rewrite lv_in, at_in by exact Hlt. unfold x_close. rewrite nth_tl_app with (k := n); [|exact Hc|now apply r_in].
        rewrite <- S_nth by exact Hlt. apply (@Forall2_at _ _ _ _ _ 0%Qc 0 H1). lia.
      + rewrite lv_out, at_out, Ec by exact Hge. apply H2. lia. }
  rewrite W. clear W. unfold on_time. pose proof (@r_in (length r - 1)) as Hlast. destruct r as [|a r'] eqn:Er.
  - cbn [map]. split; [intros [[_ H2] _]; split; [exact I|exact H2]|]. intros [_ H2]. split; [split; [|exact H2]|].
    + destruct ls; [constructor|cbn in El; lia].
    + unfold back_at. rewrite Er. cbn [length]. change (1 <=? 0) with false. cbv iota. rewrite to_out. destruct ls; [|cbn in El; lia]. cbn [last]. rewrite Qcplus_0_l. now apply nth_nonneg.
  - assert (Eb : nth back_at x_to 0%Qc = entry T (last (map S r) 0) 0).
    { unfold back_at. rewrite Er. change (1 <=? length (a :: r')) with true. cbv iota. rewrite last_S. apply to_in. rewrite last_nth. apply Hlast. cbn. lia. }
    rewrite Eb, <- Er. cbv zeta. replace (match map S r with [] => True | _ :: _ => _ end) with
      (Forall2 (fun l c => (l <= nth c close 0)%Qc) ls (map S r) /\ (last ls 0 + entry T (last (map S r) 0%nat) 0 <= nth 0 close 0)%Qc) by (rewrite Er; reflexivity).
    tauto.
Qed.
End Slots.
