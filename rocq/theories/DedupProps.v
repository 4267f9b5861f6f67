(** C03: [deduplicate_diff] (src/utils.cpp:23-78) keeps the net effect of a list of updates. *)
From Coq Require Import Sorted.
From Verif Require Import Base StateDataModel StateDataSpec DedupModel DedupProofs.
Set Implicit Arguments.

Section Theorems.
Context {V : Type}.
Variable veqb : V -> V -> bool.
Hypothesis veqb_spec : forall x y, reflect (x = y) (veqb x y).

(** If the updates lead from [l] to [l'] (replayed one by one), the deduplicated list has strictly
    increasing indices, each update goes from the old element (or nothing) to the new element (or
    nothing) at that index and is not nothing-to-nothing, and every index at which [l] and [l']
    differ is listed. *)
Theorem C03_dedup_net_effect : forall l us l' r,
  replay veqb l us = Some l' ->
  deduplicate_diff veqb us = Some r ->
  StronglySorted lt (map (@uidx V) r) /\
  (forall u, In u r -> uold u = nth_error l (uidx u) /\ uval u = nth_error l' (uidx u)
                       /\ ~ (uold u = None /\ uval u = None)) /\
  (forall i, nth_error l i <> nth_error l' i -> In i (map (@uidx V) r)).
Proof.
  intros l us l' r H Hd.
  destruct (dedup_ok veqb veqb_spec (nth_error l) (nth_error l')) with (us := us) (r := r)
    as (H1 & H2 & H3); auto.
  - intros i j Ha Hb Hij. split; eapply nth_none_up; eauto.
  - intros i. eapply replay_chain; eauto.
  - split; [auto|split; [|auto]]. intros u Hu. destruct (H2 u Hu) as (A & B & C).
    repeat split; auto. intros Hn. apply unull_none in Hn. congruence.
Qed.

(** No undefined behaviour as soon as one update really touches an element that exists before or
    after (in particular whenever some element changes). *)
Theorem C03_dedup_defined : forall l us l' u,
  replay veqb l us = Some l' ->
  In u us -> identity veqb u = false ->
  (uidx u < length l \/ uidx u < length l') ->
  exists r, deduplicate_diff veqb us = Some r.
Proof.
  intros l us l' u H Hu Hi Hlen.
  destruct (deduplicate_diff veqb us) as [r|] eqn:E; [eauto|].
  destruct (dedup_none veqb veqb_spec (nth_error l) (nth_error l')) with (us := us)
    as (h & _ & _ & Ha & Hb & Hle); auto.
  - intros i j Ha Hb Hij. split; eapply nth_none_up; eauto.
  - intros i. eapply replay_chain; eauto.
  - specialize (Hle u Hu Hi). apply nth_error_None in Ha, Hb. lia.
Qed.

End Theorems.

Print Assumptions C03_dedup_net_effect.
Print Assumptions C03_dedup_defined.

Example C03_example :
  let us := [change 2 30 31; change 0 10 11; placement 3 7; change 0 11 12; change 1 20 20;
             placement 4 8; removal 4 8] in
  replay Nat.eqb [10; 20; 30] us = Some [12; 20; 31; 7] /\
  deduplicate_diff Nat.eqb us = Some [change 0 10 12; change 2 30 31; placement 3 7].
Proof. split; reflexivity. Qed.

(** The comment at utils.cpp:59 says no-ops are skipped: an element that changes and comes back
    is kept as an identity update. *)
Theorem C03_dedup_drops_noops_refuted :
  exists (l : list nat) us r u,
    replay Nat.eqb l us = Some l /\ deduplicate_diff Nat.eqb us = Some r /\
    In u r /\ uold u = uval u.
Proof.
  exists [5], [change 0 5 7; change 0 7 5], [change 0 5 5], (change 0 5 5).
  repeat split; cbn; auto.
Qed.

(** Two elements placed then removed, nothing else touched: the loop breaks with [new_index = -1]
    and line 66 reads [diff[-1]]. *)
Theorem C03_dedup_defined_refuted :
  exists (l : list nat) us,
    replay Nat.eqb l us = Some l /\ deduplicate_diff Nat.eqb us = None.
Proof.
  exists [], [placement 0 1; placement 1 2; removal 1 2; removal 0 1]. split; reflexivity.
Qed.

(** Two removals come out in increasing order, so the result cannot be replayed under the rules
    the validation node enforces (only the last element may be removed). *)
Theorem C03_dedup_replayable_refuted :
  exists (l : list nat) us l' r,
    replay Nat.eqb l us = Some l' /\ deduplicate_diff Nat.eqb us = Some r /\
    replay Nat.eqb l r = None.
Proof.
  exists [1; 2], [removal 1 2; removal 0 1], [], [removal 0 1; removal 1 2].
  repeat split; reflexivity.
Qed.
Print Assumptions C03_dedup_drops_noops_refuted.
Print Assumptions C03_dedup_defined_refuted.
Print Assumptions C03_dedup_replayable_refuted.
