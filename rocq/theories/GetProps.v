(** C59: what is written between the brackets selects what NumPy would. *)
From Verif Require Import Base Num SliceModel ShapeModel ShapeSpec SliceSpec PermSpec AdvSpec NodeSpec PyModel PySpec PyProofs GetSpec GetProofs GetProofs4 GetProofs5 AdvProofs11.
Local Open Scope Z_scope.

(** If [x[ix]] is accepted, it stands for the array NumPy selects from the value of [x], provided that taking
    the integers out first does not move the axis of the index arrays; and it has NumPy's shape. *)
Theorem C59_value m dv x s a ix nix n y m' :
  let sh := s_shape s in let nix' := padded sh nix in
  nth_error (p_syms m) x = Some s -> Forall (fun d => 0 <= d < 2147483648) sh -> prod sh < 2147483648 ->
  yields m dv x a -> Z.of_nat (length a) = prod sh -> Forall2 (stands m dv) ix nix -> inside n sh nix' ->
  (existsb is_array nix' = true -> undisturbed nix') -> array_getitem x ix m = Ok (y, m') ->
  exists w, npy sh nix' n a = Some w /\ yields m' dv y w /\
    ((forall z, In z (arrays ix) -> shape_at m z = [Z.of_nat n]) -> shape_at m' y = npy_shape sh nix' n).
Proof. apply getitem_value. Qed.
Print Assumptions C59_value.

(** It does not if the advanced indices, integers among them, are next to each other. *)
Theorem C59_adjacent ix : existsb is_array ix = true -> ~ separated (map fancy ix) -> undisturbed ix.
Proof.
  intros E H. apply adjacent_undisturbed; [exact E|]. destruct (separatedb (map fancy ix)) eqn:B; [|reflexivity]. apply separatedb_spec in B. contradiction.
Qed.
Print Assumptions C59_adjacent.

(** [A[z, :][:, z]] and [A[:, z][z, :]], which become a [Permutation], stand for what the second pair of brackets
    selects from the first. *)
Theorem C59_permutation m dv a x z n A p first ct ct' y m' : let N := Z.of_nat n in
  nth_error (p_syms m) a = Some (Sym (KConst A) [] [N; N] ct) -> length A = (n * n)%nat ->
  nth_error (p_syms m) x = Some (Sym (KAdv [first; negb first]) [a; z] [N; N] ct') ->
  yields m dv z p -> length p = n -> Forall (fun e => exists k, 0 <= k < N /\ e = zq k) p ->
  getitem x (if first then [full; PArr z] else [PArr z; full]) m = Ok (y, m') ->
  exists v w, yields m dv x v /\ yields m' dv y w /\
    npy [N; N] (if first then [NSlice None None None; NArr p] else [NArr p; NSlice None None None]) n v = Some w /\
    exists s, nth_error (p_syms m') y = Some s /\ s_cls s = KPerm.
Proof.
  intros N Ha La Hx Hz Lp Fp E.
  assert (E' : permutation a z m = Ok (y, m')).
  { unfold getitem, bind in E. unfold look at 1 in E. rewrite Hx in E. cbn [s_cls s_pred] in E. unfold look at 1 in E. rewrite Ha in E. cbn [s_cls s_shape] in E.
    destruct first; cbn [negb is_full full andb] in E; rewrite Z.eqb_refl, Nat.eqb_refl in E; exact E. }
  assert (K : exists s, nth_error (p_syms m') y = Some s /\ s_cls s = KPerm).
  { clear -E'. unfold permutation, bind, look, lift, emit in E'. destruct (nth_error (p_syms m) a); [|discriminate]. destruct (nth_error (p_syms m) z); [|discriminate].
    destruct (PermModel.perm_new _ _ _ _ _); cbn [rbind] in E'; try discriminate. cbn in E'. injection E' as <- <-. eexists. cbn [p_syms]. rewrite nth_error_app2, Nat.sub_diag by lia. split; reflexivity. }
  assert (Ya : yields m dv a A) by (eapply y_op with (ins := []); [exact Ha|reflexivity|constructor|reflexivity]).
  assert (Dx : forall v, adv_fun [N; N] 0 [first; negb first] [A; p] = Some v -> yields m dv x v).
  { intros v Hv. eapply y_op with (ins := [A; p]); [exact Hx|reflexivity|repeat constructor; assumption|]. cbn [s_cls s_pred shapes_of map meaning]. unfold shape_at at 1 2. rewrite Ha. cbn [s_shape].
    unfold dynamic. cbn [hd]. destruct (Z.ltb_spec N 0); [lia|]. exact Hv. }
  destruct first; cbn [negb] in *.
  - destruct (rows_cols n A p Lp Fp La) as (v & w & V & W & P). exists v, w. split; [apply Dx; exact (eq_trans (rows_adv n A p Lp Fp La) V)|].
    split; [exact (perm_symbol m dv a z w n ct A p y m' Ha La Hz P E')|]. split; [exact W|exact K].
  - destruct (cols_rows n A p Lp Fp La) as (v & w & V & W & P). exists v, w. split; [apply Dx; exact (eq_trans (cols_adv n A p Lp Fp La) V)|].
    split; [exact (perm_symbol m dv a z w n ct A p y m' Ha La Hz P E')|]. split; [exact W|exact K].
Qed.
Print Assumptions C59_permutation.

(** A 2x3x3 array and the indices 2, 0; [A[0, x, 1:]] meets the hypotheses. *)
Definition ex_model : pym :=
  Pym [Sym (KConst (map (fun i => zq (Z.of_nat i)) (seq 0 18))) [] [2; 3; 3] true; Sym (KConst [zq 2; zq 0]) [] [2] true] None [].
Definition ex_sym : sym := Sym (KConst (map (fun i => zq (Z.of_nat i)) (seq 0 18))) [] [2; 3; 3] true.
Definition ex_vals : list num := map (fun i => zq (Z.of_nat i)) (seq 0 18).
Definition ex_py : list pyidx := [PInt 0; PArr 1; PSlice (Some 1) None None].
Definition ex_np : list nidx := [NInt 0; NArr [zq 2; zq 0]; NSlice (Some 1) None None].
Lemma ex_yields dv : yields ex_model dv 0 ex_vals /\ yields ex_model dv 1 [zq 2; zq 0].
Proof. split; eapply y_op with (ins := []); try reflexivity; constructor. Qed.
Example C59_ex dv : nth_error (p_syms ex_model) 0 = Some ex_sym /\ yields ex_model dv 0 ex_vals /\ Z.of_nat (length ex_vals) = prod [2; 3; 3] /\
  Forall2 (stands ex_model dv) ex_py ex_np /\ inside 2 [2; 3; 3] (padded [2; 3; 3] ex_np) /\ undisturbed (padded [2; 3; 3] ex_np) /\
  npy [2; 3; 3] (padded [2; 3; 3] ex_np) 2 ex_vals = Some [zq 7; zq 8; zq 1; zq 2] /\
  exists y m', array_getitem 0 ex_py ex_model = Ok (y, m').
Proof.
  destruct (ex_yields dv) as [Y0 Y1]. split; [reflexivity|]. split; [exact Y0|]. split; [reflexivity|].
  split; [constructor; [reflexivity|]; constructor; [exact Y1|]; constructor; [cbn; auto|constructor]|].
  split; [constructor; [exact I|]; constructor; [split; [reflexivity|]; constructor; [exists 2; split; [lia|reflexivity]|]; constructor; [exists 0; split; [lia|reflexivity]|constructor]|]; constructor; [exact I|constructor]|].
  split; [vm_compute; reflexivity|]. split; [vm_compute; reflexivity|]. vm_compute. eauto.
Qed.

(** The indices of [C59_ex] are next to each other, and a 2x2 array permuted both ways meets the hypotheses of
    [C59_permutation]. *)
Example C59_adjacent_ex : existsb is_array ex_np = true /\ ~ separated (map fancy ex_np).
Proof. split; [reflexivity|]. intros H. apply separatedb_spec in H. vm_compute in H. discriminate. Qed.
Definition ex_square (first : bool) : pym :=
  Pym [Sym (KConst [zq 1; zq 2; zq 3; zq 4]) [] [2; 2] true; Sym (KConst [zq 1; zq 0]) [] [2] true; Sym (KAdv [first; negb first]) [0; 1]%nat [2; 2] true] None [].
Example C59_permutation_ex dv first : yields (ex_square first) dv 1 [zq 1; zq 0] /\ Forall (fun e => exists k, 0 <= k < 2 /\ e = zq k) [zq 1; zq 0] /\ exists y m', getitem 2 (if first then [full; PArr 1] else [PArr 1; full]) (ex_square first) = Ok (y, m') /\ yields m' dv y [zq 4; zq 3; zq 2; zq 1].
Proof.
  split; [eapply y_op with (ins := []); try reflexivity; constructor|]. split; [constructor; [exists 1; split; [lia|reflexivity]|]; constructor; [exists 0; split; [lia|reflexivity]|constructor]|].
  destruct first; eexists _, _; (split; [vm_compute; reflexivity|]); apply (value_yields 3); vm_compute; reflexivity.
Qed.

(** With a slice between an integer and an array the result is transposed: [A[0, :, x]] has NumPy's axis of
    the array first, the code's last. *)
Theorem C59_order_refuted : exists m x s a ix nix n y m' w w',
  nth_error (p_syms m) x = Some s /\ (forall dv, yields m dv x a /\ Forall2 (stands m dv) ix nix) /\ inside n (s_shape s) nix /\
  array_getitem x ix m = Ok (y, m') /\ (forall dv, yields m' dv y w) /\ npy (s_shape s) nix n a = Some w' /\ w <> w' /\
  (forall z, In z (arrays ix) -> shape_at m z = [Z.of_nat n]) /\ shape_at m' y <> npy_shape (s_shape s) nix n.
Proof.
  exists ex_model, 0%nat, ex_sym, ex_vals, [PInt 0; full; PArr 1], [NInt 0; NSlice None None None; NArr [zq 2; zq 0]], 2%nat.
  eexists _, _, _, _. split; [reflexivity|].
  split; [intros dv; destruct (ex_yields dv) as [Y0 Y1]; split; [exact Y0|]; constructor; [reflexivity|]; constructor; [cbn; auto|]; constructor; [exact Y1|constructor]|].
  split; [constructor; [exact I|]; constructor; [exact I|]; constructor; [split; [reflexivity|]; constructor; [exists 2; split; [lia|reflexivity]|]; constructor; [exists 0; split; [lia|reflexivity]|constructor]|constructor]|].
  split; [vm_compute; reflexivity|].
  split; [intros dv; apply (value_yields 3); vm_compute; reflexivity|]. split; [vm_compute; reflexivity|]. split; [vm_compute; discriminate|].
  split; [intros z [<-|[]]; reflexivity|]. vm_compute. discriminate.
Qed.
Print Assumptions C59_order_refuted.
(** [A[z, :][:, z]] with fewer indices than rows is refused, although plain indexing takes it. *)
Theorem C59_permutation_refuted : exists m x ix y m', getitem x ix m = Throw /\ array_getitem x ix m = Ok (y, m').
Proof.
  exists (Pym [Sym (KConst (map (fun i => zq (Z.of_nat i)) (seq 0 9))) [] [3; 3] true; Sym (KConst [zq 2; zq 0]) [] [2] true; Sym (KAdv [true; false]) [0; 1]%nat [2; 3] true] None []).
  exists 2%nat, [full; PArr 1]. eexists _, _. split; vm_compute; reflexivity.
Qed.
Print Assumptions C59_permutation_refuted.
