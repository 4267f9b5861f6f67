(** C68: quadratic models from dictionaries, and in model files.  Modelled in [QuboModel.v]. *)
From Verif Require Import Base Num NarySpec SliceModel NodeSpec BinaryModel QuadModel PyModel PySpec CqmSpec CqmProofs QuboModel QuboSpec QuboProofs.
Local Open Scope Z_scope.

(** The node of a dictionary shows the polynomial of its items, for binary variables and for others. *)
Theorem C68_value lg m y s n quad linear : nth_error (p_syms m) y = Some s -> s_shape s = [Z.of_nat n] -> (1 <= n)%nat -> Z.of_nat n <= 2 ^ 31 -> quad <> [] -> keys_within n quad linear ->
  exists m', quadratic_dict lg y quad linear m = Ok (length (p_syms m), m') /\
    forall dv v, yields m dv y v -> length v = n -> (lg = true -> Forall bit v) -> yields m' dv (length (p_syms m)) [dict_value quad linear v].
Proof. intros Hy Hs Hn Hb Hq K. destruct (@dict_made lg m y s n Hy Hs Hn Hb quad linear Hq K) as (q & E & _ & H). eauto. Qed.
Print Assumptions C68_value.

(** Its biases are the sums of those of the items; the square of a binary variable is the variable.  Other indices are refused. *)
Theorem C68_biases lg m y s n quad linear : nth_error (p_syms m) y = Some s -> s_shape s = [Z.of_nat n] -> (1 <= n)%nat -> Z.of_nat n <= 2 ^ 31 -> quad <> [] -> keys_within n quad linear ->
  exists q m', quadratic_dict lg y quad linear m = Ok (length (p_syms m), m') /\ nth_error (p_syms m') (length (p_syms m)) = Some (Sym (KQuad lg q) [y] [] true) /\
    (forall i, within n i -> sym_linear q i = Ok (bias_of linear i + if lg then bias_of2 quad i i else 0)%Qc) /\
    (forall i, within n i -> sym_quadratic q i i = Ok (if lg then 0 else bias_of2 quad i i)%Qc) /\
    (forall i j, within n i -> within n j -> i <> j -> sym_quadratic q i j = Ok (bias_of2 quad i j + bias_of2 quad j i)%Qc) /\
    (forall i j, ~ within n i -> sym_linear q i = Throw /\ sym_quadratic q i j = Throw /\ sym_quadratic q j i = Throw).
Proof.
  intros Hy Hs Hn Hb Hq K. destruct (@dict_made lg m y s n Hy Hs Hn Hb quad linear Hq K) as (q & E & [Hqn H] & _). exists q. eexists. split; [exact E|].
  assert (In_ : forall i, within n i -> (0 <=? i) && (i <? Z.of_nat n) = true) by (unfold within; lia). assert (Out : forall i, ~ within n i -> (0 <=? i) && (i <? Z.of_nat n) = false) by (unfold within; lia).
  assert (H' : forall i j, within n i -> within n j -> (Z.to_nat i < n)%nat /\ (Z.to_nat j < n)%nat) by (unfold within; lia).
  assert (I : forall i, within n i -> Z.of_nat (Z.to_nat i) = i) by (unfold within; lia).
  unfold sym_linear, sym_quadratic. rewrite Hqn. repeat split.
  - unfold extended. cbn [p_syms]. now rewrite nth_error_app2, Nat.sub_diag by lia.
  - intros i Hi. rewrite (In_ i Hi). destruct (H' i i Hi Hi) as [L1 L2]. destruct (H _ _ L1 L2) as [-> _]. now rewrite (I i Hi).
  - intros i Hi. rewrite (In_ i Hi). destruct (H' i i Hi Hi) as [L1 L2]. destruct (H _ _ L1 L2) as [_ ->]. now rewrite (I i Hi), Nat.eqb_refl.
  - intros i j Hi Hj Hne. rewrite (In_ i Hi), (In_ j Hj). destruct (H' i j Hi Hj) as [L1 L2]. destruct (H _ _ L1 L2) as [_ ->]. rewrite (I i Hi), (I j Hj). destruct (Nat.eqb_spec (Z.to_nat i) (Z.to_nat j)) as [e|]; [|reflexivity]. exfalso. apply Hne. rewrite <- (I i Hi), <- (I j Hj). now rewrite e.
  - rewrite (Out i) by assumption. reflexivity.
  - rewrite (Out i) by assumption. reflexivity.
  - rewrite (Out i) by assumption. now destruct (_ && _).
Qed.
Print Assumptions C68_biases.

(** Refused: no interaction at all; a linear key out of range; an interaction with a key out of range that is a 32-bit integer, or no 64-bit one;
    and arrays that are not vectors of a fixed size, or are empty. *)
Theorem C68_refuses lg m y s n quad linear : nth_error (p_syms m) y = Some s -> s_shape s = [Z.of_nat n] -> (1 <= n)%nat -> Z.of_nat n <= 2 ^ 31 ->
  quad = [] \/ Exists (fun e => ~ within n (fst e)) linear \/ Exists (fun t => exists k, (k = fst (fst t) \/ k = snd (fst t)) /\ ~ within n k /\ (in32 k \/ ~ in64 k)) quad ->
  quadratic_dict lg y quad linear m = Throw.
Proof.
  intros Hy Hs Hn Hb H. apply (@dict_refuses lg m y s n Hy Hs Hn Hb). destruct H as [H|[H|H]]; [auto|auto|]. right. right. apply Exists_exists in H. destruct H as (t & Ht & k & Hk & Ho & H3). apply Exists_exists. exists t. split; [exact Ht|].
  change (2 ^ 31) with 2147483648 in *. unfold in32, in64 in H3. change (2 ^ 31) with 2147483648 in H3. change (2 ^ 63) with 9223372036854775808 in H3. destruct H3 as [H3|H3].
  - left. intros C. unfold in_coords, wrapped, within in *. cbn [fst snd] in C. assert (Ek : intc k = k) by (apply intc_small; lia). destruct Hk as [-> | ->]; rewrite Ek in C; lia.
  - right. unfold fits64. destruct Hk as [-> | ->]; auto.
Qed.
Print Assumptions C68_refuses.
Theorem C68_shape lg m y s quad linear : nth_error (p_syms m) y = Some s -> (forall n, s_shape s = [n] -> n <= 0) -> quadratic_dict lg y quad linear m = Throw.
Proof.
  intros Hy H. unfold quadratic_dict, bind, look. rewrite Hy. destruct (dynamic (s_shape s)); [reflexivity|]. destruct (s_shape s) as [|n [|]]; [reflexivity| |reflexivity]. specialize (H n eq_refl). destruct (Z.ltb_spec n 1); [reflexivity|lia].
Qed.
Print Assumptions C68_shape.

(** Of the keys of interactions only the low 32 bits count. *)
Theorem C68_low_bits lg m y s n quad quad' linear : nth_error (p_syms m) y = Some s -> s_shape s = [Z.of_nat n] -> (1 <= n)%nat ->
  Forall2 (fun t t' => in64 (fst (fst t)) /\ in64 (snd (fst t)) /\ left32 (fst (fst t)) (fst (fst t')) /\ left32 (snd (fst t)) (snd (fst t')) /\ snd t' = snd t) quad quad' ->
  quadratic_dict lg y quad linear m = quadratic_dict lg y quad' linear m.
Proof.
  intros Hy Hs Hn F. assert (L : forall z w, left32 z w -> intc z = w) by (intros z w [[? ?] [k ->]]; change (2 ^ 31) with 2147483648 in *; change (2 ^ 32) with 4294967296; unfold intc; replace (w + k * 4294967296 + 2147483648) with (w + 2147483648 + k * 4294967296) by ring; rewrite Z.mod_add by lia; rewrite Z.mod_small; lia).
  replace quad' with (map wrapped quad).
  - apply (@dict_wraps lg m y s n Hy Hs Hn). apply Forall_forall. intros t Ht. destruct (@Forall2_in_l _ _ _ _ _ _ F Ht) as (t' & _ & H1 & H2 & _). split; assumption.
  - clear - F L. induction F as [|[[u v] b] [[u' v'] b'] l l' H _ IH]; [reflexivity|]. cbn [map]. rewrite IH. f_equal. cbn [fst snd] in H. destruct H as (_ & _ & H1 & H2 & ->). unfold wrapped. cbn [fst snd]. now rewrite (L _ _ H1), (L _ _ H2).
Qed.
Print Assumptions C68_low_bits.

(** What a model file stores of such a node, the constructor makes into a node with the same biases and the same value. *)
Theorem C68_file lg m m2 y y2 s s2 n quad linear z m1 : nth_error (p_syms m) y = Some s -> s_shape s = [Z.of_nat n] -> nth_error (p_syms m2) y2 = Some s2 -> s_shape s2 = [Z.of_nat n] -> (1 <= n)%nat -> Z.of_nat n <= 2 ^ 31 ->
  quadratic_dict lg y quad linear m = Ok (z, m1) ->
  exists q q' m', nth_error (p_syms m1) z = Some (Sym (KQuad lg q) [y] [] true) /\
    reloaded lg y2 q m2 = Ok (length (p_syms m2), m') /\ nth_error (p_syms m') (length (p_syms m2)) = Some (Sym (KQuad lg q') [y2] [] true) /\
    (forall i j, sym_linear q' i = sym_linear q i /\ sym_quadratic q' i j = sym_quadratic q i j) /\ forall shs ins, meaning (KQuad lg q') shs ins = meaning (KQuad lg q) shs ins.
Proof. exact (@dict_file lg m m2 y y2 s s2 n quad linear z m1). Qed.
Print Assumptions C68_file.

(** Keys out of range need not be refused: here (2 ^ 32, 1) is taken for (0, 1). *)
Definition ex_m : pym := Pym [Sym KBinary [] [2] true] None [].
Theorem C68_range_refuted : exists m y s n quad m', nth_error (p_syms m) y = Some s /\ s_shape s = [Z.of_nat n] /\ (1 <= n)%nat /\ Exists (fun t => ~ within n (fst (fst t))) quad /\
  quadratic_dict true y quad [] m = Ok (length (p_syms m), m').
Proof.
  exists ex_m, 0%nat, (Sym KBinary [] [2] true), 2%nat, [(2 ^ 32, 1, zq 3)]. eexists. split; [reflexivity|]. split; [reflexivity|]. split; [lia|]. split; [constructor; unfold within; cbn [fst snd]; change (2 ^ 32) with 4294967296; lia|]. vm_compute. reflexivity.
Qed.
Print Assumptions C68_range_refuted.

(** x0 - 2 x1 + 3 x0 x1 + 4 x1 x0 + 5 x1 x1. *)
Definition ex_quad : list (Z * Z * num) := [(0, 1, zq 3); (1, 0, zq 4); (1, 1, zq 5)].
Definition ex_lin : list (Z * num) := [(0, zq 1); (1, zq (-2))].
Example C68_ex : keys_within 2 ex_quad ex_lin /\ dict_value ex_quad ex_lin [1; 1]%Qc = zq 11 /\ dict_value ex_quad ex_lin [zq 2; zq 3] = zq 83.
Proof. split; [unfold keys_within, within; repeat constructor; cbn; lia|]. split; apply Qc_is_canon; reflexivity. Qed.
Example C68_ex_made : exists m', quadratic_dict true 0 ex_quad ex_lin ex_m = Ok (1%nat, m') /\ forall dv, dv 0%nat = [1; 1]%Qc -> yields m' dv 1 [zq 11].
Proof.
  destruct (C68_value true ex_m 0 (Sym KBinary [] [2] true) 2 ex_quad ex_lin) as (m' & E & H); [reflexivity|reflexivity|lia|lia|discriminate|apply C68_ex|]. exists m'. split; [exact E|]. intros dv Hd. destruct C68_ex as (_ & Ev & _). rewrite <- Ev. apply H; [|reflexivity|].
  - rewrite <- Hd. apply y_dec with (Sym KBinary [] [2] true); reflexivity.
  - intros _. constructor; [now right|]. constructor; [now right|constructor].
Qed.
Definition node_made (r : res (nat * pym)) : option qmodel := match r with Ok (x, m) => match option_map s_cls (nth_error (p_syms m) x) with Some (KQuad _ q) => Some q | _ => None end | _ => None end.
Definition ex_q : option qmodel := node_made (quadratic_dict true 0 ex_quad ex_lin ex_m).
Definition ex_q' : option qmodel := match ex_q with Some q => node_made (reloaded true 0 q ex_m) | None => None end.
Example C68_ex_biases : option_map (fun q => (sym_linear q 1, sym_quadratic q 1 0, sym_quadratic q 1 1, sym_linear q (-1))) ex_q = Some (Ok (zq 3), Ok (zq 7), Ok 0%Qc, Throw) /\
  option_map (fun q => (stored_quad q, stored_lin q)) ex_q = Some (Ok [(0, 0, 0%Qc); (1, 1, 0%Qc); (0, 1, zq 7)], Ok [zq 1; zq 3]) /\
  option_map (fun q => (sym_linear q 1, sym_quadratic q 1 0, sym_quadratic q 1 1, sym_linear q (-1))) ex_q' = Some (Ok (zq 3), Ok (zq 7), Ok 0%Qc, Throw).
Proof. split; [|split]; vm_compute; reflexivity. Qed.
Example C68_ex_refuses : quadratic_dict true 0 ex_quad [(2, zq 1)] ex_m = Throw /\ quadratic_dict true 0 [(0, -1, zq 1)] [] ex_m = Throw /\ quadratic_dict true 0 [] ex_lin ex_m = Throw.
Proof. split; [|split]; vm_compute; reflexivity. Qed.
