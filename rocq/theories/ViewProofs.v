(** Updates seen element by element. *)
From Verif Require Import Base StateDataModel StateDataSpec Replay NodeSpec.

Section Cells.
Context {V : Type}.
Variable veqb : V -> V -> bool.
Variable spec : forall x y, reflect (x = y) (veqb x y).
Notation replay := (replay veqb).

Definition upds (i : nat) (us : list (update V)) := filter (fun u => uidx u =? i) us.
Fixpoint ochain (o : option V) (us : list (update V)) (o' : option V) : Prop :=
  match us with [] => o = o' | u :: t => uold u = o /\ ochain (uval u) t o' end.

Lemma replay1_cell l u l' : replay1 veqb l u = Some l' ->
  uold u = nth_error l (uidx u) /\ uval u = nth_error l' (uidx u) /\
  (forall j, j <> uidx u -> nth_error l' j = nth_error l j).
Proof.
  intros H. apply (rp1_inv spec) in H. destruct H as [o v -> E ->|v -> ->|o -> ->]; cbn [uidx uold uval change placement removal].
  - cbn [uidx change] in E. split; [now symmetry|]. split; [symmetry; apply nth_error_lset_eq; eapply nth_error_lt; eauto|].
    intros j Hj. now apply nth_error_lset_neq; auto.
  - rewrite nth_error_snoc. split; [symmetry; apply nth_error_None; lia|]. split; [reflexivity|].
    intros j Hj. destruct (Nat.lt_ge_cases j (length l)); [now rewrite nth_error_app1|].
    transitivity (@None V); [|symmetry]; apply nth_error_None; rewrite ?app_length; cbn; lia.
  - rewrite nth_error_snoc. split; [reflexivity|]. split; [symmetry; apply nth_error_None; lia|].
    intros j Hj. destruct (Nat.lt_ge_cases j (length l')); [now rewrite nth_error_app1|].
    transitivity (@None V); [|symmetry]; apply nth_error_None; rewrite ?app_length; cbn; lia.
Qed.

Lemma replay_cells us : forall l l', replay l us = Some l' ->
  forall i, ochain (nth_error l i) (upds i us) (nth_error l' i).
Proof.
  induction us as [|u us IH]; intros l l' H i.
  - rewrite rp_nil in H. injection H as <-. reflexivity.
  - apply rp_cons_inv in H as (l1 & H1 & H2). destruct (replay1_cell _ _ _ H1) as (E1 & E2 & E3).
    specialize (IH _ _ H2 i). cbn [upds filter]. destruct (Nat.eqb_spec (uidx u) i) as [<-|N].
    + cbn [ochain]. split; [exact E1|]. rewrite E2. exact IH.
    + rewrite <- (E3 i ltac:(congruence)). exact IH.
Qed.

Lemma changes_replay us : forall l l', length l = length l' -> Forall is_change us -> Forall (fun u => uidx u < length l) us ->
  (forall i, i < length l -> ochain (nth_error l i) (upds i us) (nth_error l' i)) -> replay l us = Some l'.
Proof.
  induction us as [|u us IH]; intros l l' L C B H.
  - rewrite rp_nil. f_equal. apply nth_error_ext. intros i. destruct (Nat.lt_ge_cases i (length l)) as [Hi|Hi].
    + exact (H i Hi).
    + transitivity (@None V); [|symmetry]; apply nth_error_None; lia.
  - inversion C as [|? ? [C1 C2] C3]; subst. inversion B as [|? ? B1 B2]; subst.
    destruct u as [i [o|] [v|]]; cbn [uidx uold uval] in *; try congruence.
    pose proof (H i B1) as Hi. cbn [upds filter uidx] in Hi. rewrite Nat.eqb_refl in Hi. cbn [ochain uold uval] in Hi.
    destruct Hi as [E1 Hi]. assert (R : replay1 veqb l (change i o v) = Some (lset i v l)) by (apply (rp_change spec); now symmetry).
    unfold change in R. rewrite (rp_cons _ _ _ _ R). apply IH.
    + now rewrite lset_length.
    + exact C3.
    + rewrite lset_length. exact B2.
    + rewrite lset_length. intros j Hj. specialize (H j Hj). cbn [upds filter uidx] in H.
      destruct (Nat.eqb_spec i j) as [Ej|N]; [rewrite <- Ej in *|].
      * rewrite nth_error_lset_eq by exact B1. exact Hi.
      * rewrite nth_error_lset_neq by congruence. exact H.
Qed.

(** A view given by a table of positions. *)
Definition remap (f : nat -> option nat) (us : list (update V)) : list (update V) :=
  flat_map (fun u => match f (uidx u) with Some j => [Upd j (uold u) (uval u)] | None => [] end) us.

Lemma remap_cells f n pos us : (forall q j, f q = Some j <-> j < n /\ q = pos j) ->
  forall j o o', j < n -> ochain o (upds (pos j) us) o' -> ochain o (upds j (remap f us)) o'.
Proof.
  intros Hf j o o' Hj. revert o. induction us as [|u us IH]; intros o H; [exact H|].
  cbn [remap flat_map upds filter] in *. destruct (Nat.eqb_spec (uidx u) (pos j)) as [E|N].
  - rewrite (proj2 (Hf (uidx u) j) (conj Hj E)). cbn [app filter uidx]. rewrite Nat.eqb_refl. cbn [ochain uold uval] in *.
    destruct H as [H1 H2]. split; [exact H1|]. exact (IH _ H2).
  - destruct (f (uidx u)) as [j'|] eqn:Ef; [|exact (IH _ H)]. cbn [app filter uidx].
    destruct (Nat.eqb_spec j' j) as [->|]; [apply Hf in Ef; tauto|]. exact (IH _ H).
Qed.

Lemma remap_replay f n pos us l l' w w' : replay l us = Some l' -> Forall is_change us ->
  (forall q j, f q = Some j <-> j < n /\ q = pos j) ->
  length w = n -> length w' = n ->
  (forall j, j < n -> nth_error w j = nth_error l (pos j)) ->
  (forall j, j < n -> nth_error w' j = nth_error l' (pos j)) ->
  replay w (remap f us) = Some w' /\ Forall is_change (remap f us).
Proof.
  intros R C Hf L L' W W'.
  assert (C' : Forall is_change (remap f us)).
  { clear R. induction C as [|u us [C1 C2] C IH]; [constructor|]. cbn [remap flat_map]. destruct (f (uidx u)); [|exact IH].
    constructor; [split; assumption|exact IH]. }
  split; [|exact C']. apply changes_replay; [congruence|exact C'| |].
  - clear R C C'. induction us as [|u us IH]; [constructor|]. cbn [remap flat_map]. destruct (f (uidx u)) eqn:E; [|exact IH].
    constructor; [|exact IH]. cbn. apply Hf in E. lia.
  - rewrite L. intros i Hi. rewrite W, W' by exact Hi. eapply remap_cells; eauto. now apply replay_cells.
Qed.
End Cells.
