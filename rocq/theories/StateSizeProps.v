(** C62: [state_size], which the header of a model file contains. *)
From Verif Require Import Base SliceModel ArithModel GraphModel SizeModel SizeSpec SizeProofs SizeProps StateSizeModel StateSizeSpec StateSizeProofs.
Local Open Scope Z_scope.

(** [state_size] of a node gives a number only if the node is no array, its size is fixed, or its number of elements is
    limited somewhere on the way to the root; it raises only if none of these holds. *)
Theorem C62_limited : forall nodes id, orderly nodes -> (id < length nodes)%nat ->
  let limited := nth_error nodes id = Some None \/ fixed nodes id \/ capped nodes id in
  (forall b, state_size nodes id = Ok b -> limited) /\ (state_size nodes id = Throw -> ~ limited).
Proof.
  intros nodes id W L. cbv zeta. unfold state_size. destruct (nth_error nodes id) as [[a|]|] eqn:E.
  3:{ apply nth_error_None in E. lia. }
  2:{ split; [auto|discriminate]. }
  assert (D : (exists n, a = AFixed n) \/ forall n, a <> AFixed n) by (destruct a; [left; eauto|right; discriminate..]).
  destruct D as [[n ->]|N].
  - split; [intros _ _; right; left; now exists n|]. unfold array_state_size, arrays_of. rewrite E. discriminate.
  - destruct (array_size nodes W id a E N) as [S1 S2]. split.
    + intros b H. right. right. eauto.
    + intros H [C|[[n C]|C]]; [discriminate C| |now apply S1 in H]. rewrite E in C. injection C as ->. now destruct (N n).
Qed.
Print Assumptions C62_limited.

(** For the chains of C42 (and arrays of fixed size) no state takes more bytes than that. *)
Theorem C62_estimate : forall nodes sz id b, let ctx := arrays_of nodes in sized ctx sz ->
  trimmed ctx id \/ headed ctx id \/ (exists n, ctx id = Some (AFixed n)) -> state_size nodes id = Ok b -> sz id * 8 <= b.
Proof.
  intros nodes sz id b ctx Sz K H. assert (A : exists a, nth_error nodes id = Some (Some a)).
  { assert (C : exists a, ctx id = Some a) by (destruct K as [T|[T|[n E]]]; [destruct T; eauto..|eauto]).
    destruct C as [a C]. unfold ctx, arrays_of in C. destruct (nth_error nodes id) as [[a'|]|]; try discriminate. eauto. }
  destruct A as [a E]. unfold state_size in H. rewrite E in H. unfold array_state_size in H. fold ctx in H.
  assert (Ca : ctx id = Some a) by (unfold ctx, arrays_of; now rewrite E). rewrite Ca in H.
  assert (G : (exists n, a = AFixed n) \/ rbind (info ctx id) (fun i => rbind (if ptr_eqb (si_ptr i) (Some id) then Ok i else substitute ctx (length nodes) i) (fun i =>
    match si_max i with None => Throw | Some m => Ok (m * itemsize) end)) = Ok b) by (destruct a; [left; eauto|right; exact H..]).
  destruct G as [[n ->]|G].
  - injection H as <-. destruct (Sz _ _ Ca) as [_ S]. unfold itemsize. lia.
  - assert (K' : trimmed ctx id \/ headed ctx id).
    { destruct K as [T|[T|[n En]]]; auto. exfalso. rewrite Ca in En. injection En as ->. unfold info in G. rewrite Ca in G. cbn [rbind si_ptr si_fixed ptr_eqb] in G.
      destruct (length nodes) eqn:Ln; [destruct nodes; [destruct id|]; discriminate|]. cbn [substitute subst1 si_ptr rbind] in G. discriminate G. }
    apply rbind_inv in G as (i & I & G). apply rbind_inv in G as (j & J & G). destruct (si_max j) as [m|] eqn:M; [|discriminate]. injection G as <-. unfold itemsize.
    destruct (ptr_eqb (si_ptr i) (Some id)).
    + injection J as <-. destruct (C42_bounds ctx sz id 0 i i Sz K' I eq_refl) as [B _]. specialize (B m M). lia.
    + destruct (C42_bounds ctx sz id _ i j Sz K' I J) as [B _]. specialize (B m M). lia.
Qed.
Print Assumptions C62_estimate.

(** A model is written completely (or checked when read) only if all its arrays are limited so; its decisions alone only
    depend on the decisions.  The header then has the sums. *)
Theorem C62_header : forall nodes k num_states only h, orderly nodes -> (k <= length nodes)%nat ->
  header_data nodes k num_states only = Ok h ->
  (forall id, (id < if only then k else length nodes)%nat -> nth_error nodes id = Some None \/ fixed nodes id \/ capped nodes id) /\
  let sum n := fold_right Z.add 0 (map (fun id => match state_size nodes id with Ok b => b | _ => 0 end) (seq 0 n)) in
  h = (sum k, Z.of_nat (if only then k else length nodes), sum (if only then k else length nodes), num_states).
Proof.
  intros nodes k ns only h W Hk H. unfold header_data in H. apply rbind_inv in H as (d & Hd & H). apply rbind_inv in H as (s & Hs & H). injection H as <-.
  assert (Q : forall n z, total_size nodes (seq 0 n) = Ok z -> (forall id, (id < n)%nat -> exists b, state_size nodes id = Ok b) /\
    z = fold_right Z.add 0 (map (fun id => match state_size nodes id with Ok b => b | _ => 0 end) (seq 0 n))).
  { intros n z T. assert (B : forall id, In id (seq 0 n) -> exists b, state_size nodes id = Ok b) by (intros id Hi; eapply total_bad; eassumption).
    split; [intros id Hi; apply B, in_seq; lia|]. unfold total_size in T. rewrite total_throw in T by exact B. injection T as <-. lia. }
  destruct (Q _ _ Hd) as [Q1 ->]. assert (Q2 : (forall id, (id < if only then k else length nodes)%nat -> exists b, state_size nodes id = Ok b) /\
    s = fold_right Z.add 0 (map (fun id => match state_size nodes id with Ok b => b | _ => 0 end) (seq 0 (if only then k else length nodes)))).
  { destruct only; [injection Hs as <-; split; auto|apply Q, Hs]. }
  destruct Q2 as [Q2 ->]. split; [|reflexivity]. intros id Hi. destruct (Q2 id Hi) as [b Hb].
  assert (L : (id < length nodes)%nat) by (destruct only; lia). exact (proj1 (C62_limited nodes id W L) b Hb).
Qed.
Print Assumptions C62_header.

Lemma orderly_table l : Forall (fun '(id, o) => match o with None => True | Some a =>
  (forall p, parent a = Some p -> (p < id)%nat /\ exists b, nth_error l p = Some (Some b) /\ forall n, b <> AFixed n) /\
  match a with ASlice _ s prow row => sstep s <> 0 /\ prow <> 0 | AOwn _ (Some m) => m < SMAX | _ => True end end) (combine (seq 0 (length l)) l) -> orderly l.
Proof.
  intros F id a E. assert (I : In (id, Some a) (combine (seq 0 (length l)) l)).
  { apply nth_error_In with id. assert (L : (id < length l)%nat) by (apply nth_error_Some; congruence). clear F.
    assert (G : forall b id, nth_error l id = Some (Some a) -> nth_error (combine (seq b (length l)) l) id = Some ((b + id)%nat, Some a)).
    { clear. induction l as [|x l IH]; intros b id; destruct id as [|id]; cbn; try discriminate; intros E; [injection E as ->; f_equal; f_equal; lia|]. rewrite IH; auto. do 2 f_equal. lia. }
    now apply (G 0%nat). }
  rewrite Forall_forall in F. exact (F _ I).
Qed.
Ltac order := apply orderly_table; cbn [combine seq length]; repeat (apply Forall_cons || apply Forall_nil); cbn beta iota;
  match goal with
  | |- True => exact I
  | |- _ /\ _ => split; [intros p P; first [discriminate P|injection P as <-; split; [lia|eexists; split; [reflexivity|discriminate]]]|
                        try exact I; try (split; discriminate); try (unfold SMAX; lia)]
  end.

(** A set, an array of three elements, a node that is no array, the set without its first element, and that plus one. *)
Example C62_example : let nodes := [Some (AOwn (Some 0) (Some 5)); Some (AFixed 3); None; Some (ASlice 0 (Slice 1 SMAX 1) 1 1); Some (AScalarOp 3)] in
  orderly nodes /\ capped nodes 4 /\ fixed nodes 1 /\ map (state_size nodes) (seq 0 5) = [Ok 40; Ok 24; Ok 0; Ok 32; Ok 32] /\
  header_data nodes 1 2 false = Ok (40, 5, 128, 2) /\
  (exists sz, sized (arrays_of nodes) sz /\ sz 4%nat = 4 /\ trimmed (arrays_of nodes) 4).
Proof.
  cbv zeta. split; [order|].
  split; [eapply K_up; [reflexivity|reflexivity|]; eapply K_up; [reflexivity|reflexivity|]; eapply K_own; reflexivity|].
  split; [now exists 3|]. split; [vm_compute; reflexivity|]. split; [vm_compute; reflexivity|].
  exists (fun k => nth k [5; 3; 0; 4; 4] 0). split; [|split; [reflexivity|]].
  - intros id a E. destruct id as [|[|[|[|[|id]]]]]; [vm_compute in E; first [discriminate E|injection E as <-; split; [unfold SMAX; cbn; lia|]]..|]; cbn [nth].
    + split; intros x X; injection X as <-; lia.
    + reflexivity.
    + exists 5, (Slice 1 5 1), 4. repeat split; reflexivity.
    + reflexivity.
    + exfalso. unfold arrays_of in E. rewrite (proj2 (nth_error_None _ _)) in E by (cbn; lia). discriminate E.
  - eapply T_scalar; [reflexivity|]. eapply T_slice; [reflexivity|unfold SMAX; lia|now left|]. eapply T_own. reflexivity.
Qed.

(** A model of a set and its negative has no state size and cannot be written, except for its decisions: the size of the negative is that of the set. *)
Theorem C62_unary_refuted : exists nodes, orderly nodes /\ length nodes = 2%nat /\ (forall sz, sized (arrays_of nodes) sz -> 0 <= sz 0%nat <= 5 /\ sz 1%nat <= 5) /\
  state_size nodes 1 = Throw /\ header_data nodes 1 0 false = Throw /\ header_data nodes 1 0 true = Ok (40, 1, 40, 0).
Proof.
  exists [Some (AOwn (Some 0) (Some 5)); Some (ADefault 0)]. split; [order|]. split; [reflexivity|]. split.
  - intros sz Sz. destruct (Sz 0%nat _ eq_refl) as [B [B1 B2]]. destruct (Sz 1%nat _ eq_refl) as [_ C]. specialize (B2 5 eq_refl). specialize (B1 0 eq_refl). lia.
  - repeat split; vm_compute; reflexivity.
Qed.
Print Assumptions C62_unary_refuted.

(** Rows picked by a set (four elements each), and the end of a set of at least five, take more than their state size;
    the latter even depends on how many other nodes there are. *)
Theorem C62_estimate_refuted : exists nodes sz, orderly nodes /\ sized (arrays_of nodes) sz /\
  state_size nodes 1 = Ok 80 /\ sz 1%nat * 8 = 320 /\ state_size nodes 2 = Ok 8 /\ sz 2%nat * 8 = 56 /\
  state_size (nodes ++ [None]) 2 = Ok 0.
Proof.
  exists [Some (AOwn (Some 5) (Some 10)); Some (AGather 0 4); Some (ASlice 0 (Slice 3 SMAX 1) 1 1)].
  exists (fun k => nth k [10; 40; 7] 0).
  assert (S : sized (arrays_of [Some (AOwn (Some 5) (Some 10)); Some (AGather 0 4); Some (ASlice 0 (Slice 3 SMAX 1) 1 1)]) (fun k => nth k [10; 40; 7] 0)).
  { intros id a E. destruct id as [|[|[|id]]]; [vm_compute in E; injection E as <-; split; [unfold SMAX; cbn; lia|]..|]; cbn [nth].
    - split; intros x X; injection X as <-; lia.
    - reflexivity.
    - exists 10, (Slice 3 10 1), 7. repeat split; reflexivity.
    - exfalso. unfold arrays_of in E. rewrite (proj2 (nth_error_None _ _)) in E by (cbn; lia). discriminate E. }
  split; [order|]. split; [exact S|]. repeat split; vm_compute; reflexivity.
Qed.
Print Assumptions C62_estimate_refuted.
