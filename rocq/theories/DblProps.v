(** C64: sums and products kept up to date in doubles. *)
From Coq.Floats Require Import SpecFloat.
From Coq Require Import Permutation Lia ZArith.
From Verif Require Import Base SliceModel StateDataModel StateDataSpec BinaryModel QuadModel DblSpec DblModel DblProofs DblProofs2 DblProofs3.
Local Open Scope Z_scope.

(** Whole numbers are summed exactly: after any history of changes kept and undone, and after any
    further pending updates, the sum shown is that of the entries, if at most [L] entries of at most
    [B] stay below 2^53 in all. *)
Theorem C64_sum B L i0 init xs l d ms mz l1 us zs l2 :
  0 <= B -> Z.abs i0 + Z.of_nat L * B < 2 ^ 53 -> 2 * B < 2 ^ 53 ->
  match init with Some i => whole i i0 | None => i0 = 0 end -> Forall2 whole xs l -> sum_init init xs d ->
  history (bounded_by B L) (fun _ => True) l mz l1 -> Forall2 same_move ms mz ->
  tracks (bounded_by B L) (fun _ => True) l1 zs l2 -> Forall2 same_update us zs ->
  whole (s_val (sum_prop (sum_run d ms) us)) (i0 + zsum l2).
Proof.
  intros HB HL H2 Hi W I H F T G. assert (K : bounded_by B L l). { destruct H as [? K|? ? ? ? ? K _|? ? ? ? ? K _]; [exact K| |]; now destruct K. }
  destruct (init_sum B L i0 HB HL _ _ _ _ Hi W K I) as [V O]. pose proof (history_sum B L i0 HB HL H2 _ _ _ H ms d O V F) as Q.
  destruct (tracks_sum B L i0 HB HL H2 _ _ _ T us _ Q G). assumption.
Qed.

(** The same of sums along some axes, of an array whose entries are changed in place: entry [j] of the
    result is the sum of the entries that [f] maps to it.  Nothing is read or written out of bounds. *)
Theorem C64_partial_sums f n B L i0 init xs l d ms mz l1 us zs l2 :
  0 <= B -> Z.abs i0 + Z.of_nat L * B < 2 ^ 53 -> 2 * B < 2 ^ 53 -> (forall i, (i < L)%nat -> (f i < n)%nat) ->
  match init with Some i => whole i i0 | None => i0 = 0 end -> Forall2 whole xs l -> part_init f init n xs d ->
  history (bounded_by B L) in_place l mz l1 -> Forall2 same_move ms mz ->
  tracks (bounded_by B L) in_place l1 zs l2 -> Forall2 same_update us zs ->
  exists d1, rbind (part_run f d ms) (fun d0 => part_prop f d0 us) = Ok d1 /\
    length (p_buf d1) = n /\ forall j r, nth_error (p_buf d1) j = Some r -> whole r (i0 + zsum (group f j l2)).
Proof.
  intros HB HL H2 Hf Hi W I H F T G. assert (K : bounded_by B L l). { destruct H as [? K|? ? ? ? ? K _|? ? ? ? ? K _]; [exact K| |]; now destruct K. }
  destruct (init_part f B L i0 n HB HL Hf init l xs d Hi W K I) as [P U].
  destruct (history_part f B L i0 n HB HL H2 Hf _ _ _ H ms d U P F) as (d0 & -> & P0 & _). cbn [rbind].
  destruct (tracks_part f B L i0 n HB HL H2 Hf _ _ _ T us d0 P0 G) as (d1 & E & P1 & P2). exists d1. auto.
Qed.

(** The product of whole numbers is exact while every change is one from zero, one to zero or one to a
    multiple, entries are appended and dropped at will, and the product of the entries that are not zero stays
    below 2^53.  The assertion about zeros does not fail. *)
Theorem C64_product i0 init xs l ms mz l1 us zs l2 :
  match init with Some i => whole i i0 | None => i0 = 1 end -> Forall2 whole xs l ->
  history (tame i0) divides_only l mz l1 -> Forall2 same_move ms mz ->
  tracks (tame i0) divides_only l1 zs l2 -> Forall2 same_update us zs ->
  exists d1, rbind (mul_run (mul_init init xs) ms) (fun d => mul_prop d us) = Ok d1 /\ whole (m_val d1) (i0 * zprod l2).
Proof.
  intros Hi W H F T G. assert (K : tame i0 l). { destruct H as [? K|? ? ? ? ? K _|? ? ? ? ? K _]; [exact K| |]; now destruct K. }
  pose proof (init_mul i0 init xs l Hi W (fun k => tame_firstn i0 l k K)) as M.
  destruct (history_mul i0 _ _ _ H ms _ M F) as (d & -> & M1). cbn [rbind].
  destruct (prop_mul i0 _ _ _ _ _ M1 T G) as (d1 & E & I & V & _). exists d1. split; [exact E|]. rewrite V. apply (shown_ok i0 _ _ I).
Qed.

(** Undoing restores the state bit for bit, whatever doubles came. *)
Theorem C64_undo_sum init xs d ms us ms' : sum_init init xs d -> sum_run d (ms ++ Undo us :: ms') = sum_run d (ms ++ ms').
Proof.
  intros (r & _ & ->). unfold sum_run. rewrite !fold_left_app. cbn [fold_left]. f_equal. apply sum_undo. apply (sum_run_old ms). reflexivity.
Qed.
Theorem C64_undo_product init xs ms us d d1 :
  mul_run (mul_init init xs) ms = Ok d -> mul_move d (Undo us) = Ok d1 -> d1 = d.
Proof. intros E. apply mul_undo. eapply mul_run_clean; [apply mul_init_clean|exact E]. Qed.
Theorem C64_undo_partial_sums f init n xs d0 ms us d d1 :
  part_init f init n xs d0 -> part_run f d0 ms = Ok d -> part_move f d (Undo us) = Ok d1 -> d1 = d.
Proof. intros (rs & _ & _ & ->) E. apply part_undo_move. eapply part_run_clean; [|exact E]. reflexivity. Qed.

(** A whole number used as an index is that index. *)
Theorem C64_index x z : whole x z -> dtrunc x = Some z.
Proof. apply trunc_whole. Qed.

(** Refuted: that the sum shown is that of the entries up to rounding.  The sum of the single entry 0.1,
    changed to 1e16 and back, is 0. *)
Theorem C64_sum_refuted : exists p b d, sum_init None [p] d /\ s_val d = p /\ deqb p (dlit 0) = false /\
  deqb (s_val (sum_run d [Keep [DUpd 0 p b]; Keep [DUpd 0 b p]])) (dlit 0) = true.
Proof.
  exists (ddiv (dlit 1) (dlit 10)), (dlit (10 ^ 16)). eexists. split; [exists (ddiv (dlit 1) (dlit 10)); split; [constructor|reflexivity]|].
  repeat split; vm_compute; reflexivity.
Qed.

(** Refuted: that the product of whole numbers is whole.  The product of the single entry 49, changed to
    1, is less than 1, and 0 as an index. *)
Theorem C64_product_refuted : exists x y d, whole x 49 /\ whole y 1 /\ mul_run (mul_init None [x]) [Keep [DUpd 0 x y]] = Ok d /\
  ~ (exists z, whole (m_val d) z) /\ dtrunc (m_val d) = Some 0.
Proof.
  exists (dlit 49), (dlit 1). eexists. split; [apply norm0_whole; unfold small; lia|]. split; [apply norm0_whole; unfold small; lia|].
  split; [vm_compute; reflexivity|]. split; [|vm_compute; reflexivity]. intros [z W]. pose proof (trunc_whole _ _ W) as E. vm_compute in E. injection E as <-.
  destruct W as [_ W]. vm_compute in W. discriminate W.
Qed.

(** Refuted: that the sum recovers after an overflow.  Appending to one large entry a second and
    dropping it again leaves infinity. *)
Theorem C64_overflow_refuted : exists h d, dtrunc h <> None /\ sum_init None [h] d /\ s_val d = h /\
  s_val (sum_run d [Keep [DUpd 1 S754_nan h]; Keep [DUpd 1 h S754_nan]]) = S754_infinity false.
Proof.
  exists (dlit (2 ^ 1023)). eexists. split; [vm_compute; discriminate|]. split; [exists (dlit (2 ^ 1023)); split; [constructor|reflexivity]|].
  split; vm_compute; reflexivity.
Qed.

(** Refuted: that a sum is always there for its successors.  One entry going from -2^1023 to 2^1023 and back
    makes the sum NaN, and the update that the sum reports reads as its removal. *)
Theorem C64_nan_refuted : exists g h d, dtrunc g <> None /\ dtrunc h <> None /\ sum_init None [g] d /\
  let d1 := sum_prop (sum_run d [Keep [DUpd 0 g h]]) [DUpd 0 h g] in d_removed (sum_diff d1) = true.
Proof.
  exists (dlit (- 2 ^ 1023)), (dlit (2 ^ 1023)). eexists. split; [vm_compute; discriminate|]. split; [vm_compute; discriminate|].
  split; [exists (dlit (- 2 ^ 1023)); split; [constructor|reflexivity]|]. vm_compute. reflexivity.
Qed.

(** The bound 2^53 is needed: at it, the sum of whole numbers depends on the order of summation. *)
Theorem C64_order_refuted : exists xs l d1 d2, Forall2 whole xs l /\ Forall (fun z => Z.abs z <= 2 ^ 53 - 1) l /\
  sum_init None xs d1 /\ sum_init None xs d2 /\ deqb (s_val d1) (s_val d2) = false.
Proof.
  exists [dlit (2 ^ 53 - 1); dlit 2; dlit 1; dlit 1], [2 ^ 53 - 1; 2; 1; 1].
  exists (SData (dadd (dadd (dadd (dlit (2 ^ 53 - 1)) (dlit 2)) (dlit 1)) (dlit 1)) (dadd (dadd (dadd (dlit (2 ^ 53 - 1)) (dlit 2)) (dlit 1)) (dlit 1))).
  exists (SData (dadd (dadd (dlit (2 ^ 53 - 1)) (dlit 1)) (dadd (dlit 2) (dlit 1))) (dadd (dadd (dlit (2 ^ 53 - 1)) (dlit 1)) (dadd (dlit 2) (dlit 1)))).
  split; [repeat constructor; apply norm0_whole; unfold small; lia|]. split; [repeat constructor; lia|].
  split; [|split; [|vm_compute; reflexivity]]; eexists; split; try reflexivity; cbn [reduced].
  - eapply gr_op; [eapply gr_op; [eapply gr_op; [constructor..|apply Permutation_refl]|constructor|apply Permutation_refl]|constructor|apply Permutation_refl].
  - eapply gr_op; [eapply gr_op; [constructor..|apply Permutation_refl]|eapply gr_op; [constructor..|apply Permutation_refl]|].
    cbn [app]. apply perm_skip. apply perm_swap.
Qed.

(** An array [3; 0; -2] whose 0 becomes 5, whose -2 becomes 4 and which gets a 7 that is undone. *)
Definition ex_l : list Z := [3; 0; -2].
Definition ex_mz : list (move (update Z)) := [Keep [Upd 1%nat (Some 0) (Some 5); Upd 2%nat (Some (-2)) (Some 4)]; Undo [Upd 3%nat None (Some 7)]].
Definition ex_d (o : option Z) : dbl := match o with Some z => dlit z | None => S754_nan end.
Definition ex_ms : list (move dupdate) :=
  map (fun m => let us := map (fun u => DUpd (uidx u) (ex_d (uold u)) (ex_d (uval u))) (updates_of m) in if kept m then Keep us else Undo us) ex_mz.
Example C64_ex : history (bounded_by 10 4) (fun _ => True) ex_l ex_mz [3; 5; 4] /\ history (tame 1) divides_only ex_l ex_mz [3; 5; 4] /\
  Forall2 same_move ex_ms ex_mz /\ Forall2 whole (map dlit ex_l) ex_l /\
  (exists d, sum_init None (map dlit ex_l) d /\ s_val (sum_run d ex_ms) = dlit 12) /\
  rbind (mul_run (mul_init None (map dlit ex_l)) ex_ms) (fun d => Ok (m_val d)) = Ok (dlit 60).
Proof.
  assert (B : forall l, (length l <= 4)%nat -> Forall (fun z => Z.abs z <= 10) l -> bounded_by 10 4 l) by (intros l A F; split; assumption).
  refine (conj _ (conj _ (conj _ (conj _ (conj _ _))))).
  - eapply hi_keep; [|eapply hi_undo; [|apply hi_nil]]; repeat (eapply tr_cons; [| |reflexivity|]); repeat apply tr_nil; try exact I;
      (apply B; [cbn; lia|repeat constructor; lia]).
  - eapply hi_keep; [|eapply hi_undo; [|apply hi_nil]]; repeat (eapply tr_cons; [| |reflexivity|]); repeat apply tr_nil;
      try (split; [unfold small; cbn; lia|repeat constructor; unfold small; cbn; lia]); cbn; auto. right. right. exists (-2). reflexivity.
  - repeat constructor; cbn [stands uold uval]; try reflexivity; apply norm0_whole; unfold small; lia.
  - repeat constructor; apply norm0_whole; unfold small; lia.
  - set (r := dadd (dlit 3) (dadd (dlit 0) (dlit (-2)))). exists (SData r r). split; [exists r; split; [|reflexivity]|].
    + unfold reduced, r. cbn [map ex_l]. eapply gr_op; [constructor|eapply gr_op; [constructor..|apply Permutation_refl]|apply Permutation_refl].
    + vm_compute. reflexivity.
  - vm_compute. reflexivity.
Qed.
(** Sums along the second axis of an array of shape (2, 2). *)
Example C64_ex_partial : exists d, part_init Nat.div2 None 2 (map dlit [1; 2; 3; 4]) d /\
  rbind (part_run Nat.div2 d [Keep [DUpd 3 (dlit 4) (dlit 9)]; Undo [DUpd 0 (dlit 1) (dlit 5)]]) (fun d => Ok (p_buf d)) = Ok [dlit 3; dlit 12].
Proof.
  eexists. split; [exists [dadd (dlit 1) (dlit 2); dadd (dlit 3) (dlit 4)]; split; [reflexivity|]; split; [|reflexivity]|vm_compute; reflexivity].
  assert (Q : forall a b : dbl, Some a = Some b -> b = a) by congruence.
  intros [|[|j]] r E; [apply Q in E; subst r..|destruct j; discriminate E]; cbn [reduced]; (eapply gr_op; [constructor..|apply Permutation_refl]).
Qed.

Print Assumptions C64_sum.
Print Assumptions C64_partial_sums.
Print Assumptions C64_product.
Print Assumptions C64_undo_sum.
Print Assumptions C64_undo_product.
Print Assumptions C64_undo_partial_sums.
Print Assumptions C64_index.
Print Assumptions C64_sum_refuted.
Print Assumptions C64_product_refuted.
Print Assumptions C64_overflow_refuted.
Print Assumptions C64_nan_refuted.
Print Assumptions C64_order_refuted.
