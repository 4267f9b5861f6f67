(** Working lemmas about [replay], with uniform arguments. *)
From Verif Require Import Base StateDataModel StateDataSpec StateDataProofs.

Section R.
Context {V : Type} {veqb : V -> V -> bool}.
Variable spec : forall x y, reflect (x = y) (veqb x y).
Notation replay := (replay veqb).
Notation replay1 := (replay1 veqb).

Lemma rp_nil (l : list V) : replay l [] = Some l.
Proof. reflexivity. Qed.
Lemma rp_cons_eq (l : list V) u us :
  replay l (u :: us) = match replay1 l u with Some l1 => replay l1 us | None => None end.
Proof. reflexivity. Qed.
Lemma rp_cons (l l1 : list V) u us : replay1 l u = Some l1 -> replay l (u :: us) = replay l1 us.
Proof. intros H. now rewrite rp_cons_eq, H. Qed.
Lemma rp_one (l l1 : list V) u : replay1 l u = Some l1 -> replay l [u] = Some l1.
Proof. intros H. now rewrite (rp_cons _ _ _ _ H). Qed.
Lemma rp_app (l l1 : list V) us1 us2 : replay l us1 = Some l1 -> replay l (us1 ++ us2) = replay l1 us2.
Proof. intros H. rewrite replay_app, H. reflexivity. Qed.
Lemma rp_app_inv (l l2 : list V) us1 us2 : replay l (us1 ++ us2) = Some l2 ->
  exists l1, replay l us1 = Some l1 /\ replay l1 us2 = Some l2.
Proof. rewrite replay_app. destruct (replay l us1) as [l1|]; [eauto|discriminate]. Qed.
Lemma rp_cons_inv (l l2 : list V) u us : replay l (u :: us) = Some l2 ->
  exists l1, replay1 l u = Some l1 /\ replay l1 us = Some l2.
Proof. rewrite rp_cons_eq. destruct (replay1 l u) as [l1|]; [eauto|discriminate]. Qed.
Lemma rp_snoc (l l1 l2 : list V) us u : replay l us = Some l1 -> replay1 l1 u = Some l2 ->
  replay l (us ++ [u]) = Some l2.
Proof. intros H1 H2. rewrite (rp_app _ _ _ _ H1). now apply rp_one. Qed.

Lemma rp_change (l : list V) i x v : nth_error l i = Some x -> replay1 l (change i x v) = Some (lset i v l).
Proof. intros H. exact (replay1_change veqb spec _ _ v H). Qed.
Lemma rp_place (l : list V) i v : i = length l -> replay1 l (placement i v) = Some (l ++ [v]).
Proof. intros ->. apply replay1_placement. Qed.
Lemma rp_remove (l : list V) i x : i = length l -> replay1 (l ++ [x]) (removal i x) = Some l.
Proof. intros ->. apply (replay1_removal veqb spec x). Qed.

Inductive upd_kind (l : list V) (u : update V) (l1 : list V) : Prop :=
| UChange o v : u = change (uidx u) o v -> nth_error l (uidx u) = Some o ->
    l1 = lset (uidx u) v l -> upd_kind l u l1
| UPlace v : u = placement (length l) v -> l1 = l ++ [v] -> upd_kind l u l1
| URemove o : u = removal (length l1) o -> l = l1 ++ [o] -> upd_kind l u l1.

Lemma rp1_inv l u l1 : replay1 l u = Some l1 -> upd_kind l u l1.
Proof.
  unfold StateDataSpec.replay1. destruct u as [i uo uv]; cbn [uold uval uidx].
  destruct uo as [o|], uv as [v|]; try discriminate.
  - destruct (nth_error l i) as [x|] eqn:E; [|discriminate].
    destruct (spec x o) as [->|]; [|discriminate]. intros H. injection H as <-.
    eapply UChange; cbn; eauto. reflexivity.
  - destruct (nth_error l i) as [x|] eqn:E; [|discriminate].
    destruct (Nat.eqb_spec (S i) (length l)) as [El|]; cbn [andb]; [|discriminate].
    destruct (spec x o) as [->|]; [|discriminate]. cbn [andb]. intros H. injection H as <-.
    destruct (snoc_cases l) as [->|[l' [z ->]]]; [discriminate El|].
    rewrite removelast_last. rewrite app_length in El. cbn in El.
    assert (i = length l') by lia. subst. rewrite nth_error_snoc in E. injection E as ->.
    eapply URemove; reflexivity.
  - destruct (Nat.eqb_spec i (length l)) as [->|]; [|discriminate]. intros H. injection H as <-.
    eapply UPlace; reflexivity.
Qed.
End R.
Arguments upd_kind {V}.
