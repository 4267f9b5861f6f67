(** Small list library shared by the whole development.  Nothing here models code. *)
From Coq Require Export List Arith ZArith Lia Bool Permutation.
From Coq Require Export ZifyBool ZifyNat.
Export ListNotations.
Global Open Scope list_scope.

Set Implicit Arguments.

Global Arguments Nat.ltb : simpl never.
Global Arguments Nat.leb : simpl never.

Section Lists.
Context {A : Type}.

(** Write [x] at position [i]; identity when [i] is out of range (every caller
    guards the range first). *)
Fixpoint lset (i : nat) (x : A) (l : list A) : list A :=
  match l, i with
  | [], _ => []
  | _ :: t, O => x :: t
  | h :: t, S j => h :: lset j x t
  end.

(** Option-valued left fold: [None] is a distinct failure outcome. *)
Fixpoint ofold {B : Type} (f : A -> B -> option A) (a : A) (l : list B) : option A :=
  match l with
  | [] => Some a
  | b :: t => match f a b with Some a' => ofold f a' t | None => None end
  end.

(** All elements present. *)
Fixpoint all_some (l : list (option A)) : option (list A) :=
  match l with
  | [] => Some []
  | Some x :: t => match all_some t with Some r => Some (x :: r) | None => None end
  | None :: _ => None
  end.

Lemma lset_length i x l : length (lset i x l) = length l.
Proof. revert i; induction l as [|h t IH]; intros [|i]; cbn; auto. Qed.

Lemma nth_error_lset_eq i x l : i < length l -> nth_error (lset i x l) i = Some x.
Proof.
  revert i; induction l as [|h t IH]; intros [|i] H; cbn in *; try lia; auto.
  apply IH; lia.
Qed.

Lemma nth_error_lset_neq i j x l : i <> j -> nth_error (lset i x l) j = nth_error l j.
Proof.
  revert i j; induction l as [|h t IH]; intros [|i] [|j] H; cbn; auto; try lia.
Qed.

Lemma nth_error_lset i j x l :
  nth_error (lset i x l) j = if (i =? j) && (i <? length l) then Some x else nth_error l j.
Proof.
  destruct (Nat.eqb_spec i j) as [->|Hn]; cbn.
  - destruct (Nat.ltb_spec j (length l)) as [Hl|Hl].
    + now apply nth_error_lset_eq.
    + transitivity (@None A); [|symmetry]; apply nth_error_None; rewrite ?lset_length; lia.
  - now apply nth_error_lset_neq.
Qed.

Lemma lset_out i x l : length l <= i -> lset i x l = l.
Proof.
  revert i; induction l as [|h t IH]; intros [|i] H; cbn in *; auto; try lia.
  f_equal; apply IH; lia.
Qed.

Lemma lset_same i x l : nth_error l i = Some x -> lset i x l = l.
Proof.
  revert i; induction l as [|h t IH]; intros [|i] H; cbn in *; auto; try congruence.
  f_equal; auto.
Qed.

Lemma lset_lset i x y l : lset i x (lset i y l) = lset i x l.
Proof. revert i; induction l as [|h t IH]; intros [|i]; cbn; auto. f_equal; auto. Qed.

Lemma lset_comm i j x y l : i <> j -> lset i x (lset j y l) = lset j y (lset i x l).
Proof.
  revert i j; induction l as [|h t IH]; intros [|i] [|j] H; cbn; auto; try lia.
  f_equal; auto.
Qed.

Lemma lset_app_l i x l r : i < length l -> lset i x (l ++ r) = lset i x l ++ r.
Proof.
  revert i; induction l as [|h t IH]; intros [|i] H; cbn in *; auto; try lia.
  f_equal; apply IH; lia.
Qed.

Lemma lset_app_r i x l r : length l <= i -> lset i x (l ++ r) = l ++ lset (i - length l) x r.
Proof.
  revert i; induction l as [|h t IH]; intros i H; cbn in *.
  - now rewrite Nat.sub_0_r.
  - destruct i as [|i]; [lia|]. cbn. f_equal. apply IH; lia.
Qed.

Lemma lset_mid l x y r : lset (length l) x (l ++ y :: r) = l ++ x :: r.
Proof. rewrite lset_app_r by lia. now rewrite Nat.sub_diag. Qed.

Lemma nth_error_ext (l1 l2 : list A) : (forall i, nth_error l1 i = nth_error l2 i) -> l1 = l2.
Proof.
  revert l2; induction l1 as [|h t IH]; intros [|h2 t2] H; auto.
  - specialize (H 0); discriminate.
  - specialize (H 0); discriminate.
  - f_equal.
    + specialize (H 0); cbn in H; congruence.
    + apply IH; intros i; exact (H (S i)).
Qed.

Lemma nth_error_lt i l (x : A) : nth_error l i = Some x -> i < length l.
Proof. intros H; apply nth_error_Some; congruence. Qed.

Lemma nth_error_get i (l : list A) : i < length l -> exists x : A, nth_error l i = Some x.
Proof.
  intros H; destruct (nth_error l i) as [x|] eqn:E; eauto.
  apply nth_error_None in E; lia.
Qed.

Lemma nth_error_snoc l (x : A) : nth_error (l ++ [x]) (length l) = Some x.
Proof. rewrite nth_error_app2 by lia. now rewrite Nat.sub_diag. Qed.

Lemma snoc_cases (l : list A) : l = [] \/ exists l' x, l = l' ++ [x].
Proof.
  destruct l as [|h t]; auto. right.
  destruct (@exists_last A (h :: t)) as [l' [x E]]; [discriminate|]; eauto.
Qed.

Lemma firstn_snoc_length l (x : A) : firstn (length l) (l ++ [x]) = l.
Proof. rewrite firstn_app, firstn_all, Nat.sub_diag. cbn. apply app_nil_r. Qed.

Lemma all_some_map l : all_some (map Some l) = Some l.
Proof. induction l as [|h t IH]; cbn; auto. now rewrite IH. Qed.

Lemma all_some_length l r : all_some l = Some r -> length r = length l.
Proof.
  revert r; induction l as [|[x|] t IH]; cbn; intros r H; try congruence.
  - injection H as <-; auto.
  - destruct (all_some t); [|discriminate]. injection H as <-. cbn; f_equal; auto.
Qed.

Lemma ofold_app {B} (f : A -> B -> option A) a l1 l2 :
  ofold f a (l1 ++ l2) = match ofold f a l1 with Some a' => ofold f a' l2 | None => None end.
Proof.
  revert a; induction l1 as [|b t IH]; intros a; cbn; auto.
  destruct (f a b); auto.
Qed.

Lemma nth_error_firstn n (l : list A) i :
  nth_error (firstn n l) i = if i <? n then nth_error l i else None.
Proof.
  revert l i; induction n as [|n IH]; intros l i.
  - cbn [firstn]. destruct i; reflexivity.
  - destruct l as [|h t].
    + cbn [firstn]. destruct i; cbn; destruct (_ <? _); reflexivity.
    + cbn [firstn]. destruct i as [|i]; [reflexivity|].
      cbn [nth_error]. rewrite IH. reflexivity.
Qed.

Lemma nth_error_skipn n (l : list A) i : nth_error (skipn n l) i = nth_error l (n + i).
Proof.
  revert l; induction n as [|n IH]; intros l; auto.
  destruct l as [|h t]; cbn; auto. destruct i; reflexivity.
Qed.

Lemma nth_error_repeat (x : A) n i : nth_error (repeat x n) i = if i <? n then Some x else None.
Proof.
  revert i; induction n as [|n IH]; intros [|i]; cbn; auto.
  rewrite IH. reflexivity.
Qed.

End Lists.

Lemma map_lset {A B} (f : A -> B) i x l : map f (lset i x l) = lset i (f x) (map f l).
Proof. revert i; induction l as [|h t IH]; intros [|i]; cbn; auto. f_equal; auto. Qed.

Lemma nth_error_map {A B} (f : A -> B) i l :
  nth_error (map f l) i = match nth_error l i with Some x => Some (f x) | None => None end.
Proof. revert i; induction l as [|h t IH]; intros [|i]; cbn; auto. Qed.

Lemma nth_error_seq s n i : nth_error (seq s n) i = if i <? n then Some (s + i) else None.
Proof.
  revert s i; induction n as [|n IH]; intros s [|i]; cbn [seq nth_error]; auto.
  - change (0 <? S n) with true. cbn. f_equal; lia.
  - rewrite IH. change (S i <? S n) with (i <? n).
    replace (S s + i) with (s + S i) by lia. reflexivity.
Qed.

(** Outcome of a C++ call: a result, a thrown exception, or undefined behaviour (which includes
    failed assertions of debug builds). *)
Inductive res (A : Type) := Ok (a : A) | Throw | UB.
Arguments Ok {A} a.
Arguments Throw {A}.
Arguments UB {A}.
