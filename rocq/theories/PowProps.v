(** C61: powers, and operators that change symbols in place. *)
From Verif Require Import Base Num SliceModel BinaryModel StateDataModel BoundsModel NaryModel ReduceModel NodeSpec NodeShape PyModel PySpec PyProofs EqSpec PowSpec PowProofs.
Local Open Scope nat_scope.

(** [x ** e] is NumPy's, and nothing else changes, unless [x] is a product that was built in place. *)
Theorem C61_power m dv x s a e : nth_error (p_syms m) x = Some s -> yields m dv x a -> wf_shape (s_shape s) -> (0 < e)%Z ->
  (2 < e -> dynamic (s_shape s) = false /\ s_cls s <> KNary NMul)%Z ->
  exists y m', pow x e m = Ok (y, m') /\ yields m' dv y (power (Z.to_nat e) a) /\ kept m m' dv (fun _ => False).
Proof. intros Hs Y W He Hb. exact (pow_value m dv x s a Hs Y W e He Hb). Qed.
Print Assumptions C61_power.
Theorem C61_power_domain m x e : (e <= 0)%Z -> pow x e m = Throw.
Proof. intros H. unfold pow. destruct (Z.eqb_spec e 2); [lia|]. destruct (Z.ltb_spec 0 e); [lia|]. reflexivity. Qed.
Print Assumptions C61_power_domain.
(** [x += y] and [x *= y] of any other symbol: a new symbol with the sum or product. *)
Theorem C61_first m dv x y s t a b (times : bool) : nth_error (p_syms m) x = Some s -> nth_error (p_syms m) y = Some t ->
  yields m dv x a -> yields m dv y b -> length a = length b -> wf_shape (s_shape s) -> dynamic (s_shape s) = false -> s_shape s = s_shape t ->
  s_cls s <> KNary (if times then NMul else NAdd) ->
  exists z m', (if times then imul else iadd) x y m = Ok (z, m') /\ z = length (p_syms m) /\ yields m' dv z (both times a b) /\ kept m m' dv (fun _ => False).
Proof.
  intros Hs Ht Ya Yb L W D Sh NC. destruct (inplace_new m dv x y s t a b times Hs Ht Ya Yb L W D Sh NC) as (m' & E & Y & K). exists (length (p_syms m)), m'.
  split; [destruct times; exact E|]. split; [reflexivity|]. split; assumption.
Qed.
Print Assumptions C61_first.
(** Once more: the same symbol, with another value; what is not computed from it is unaffected. *)
Theorem C61_again m dv x y s t a b (times : bool) : nth_error (p_syms m) x = Some s -> nth_error (p_syms m) y = Some t ->
  yields m dv x a -> yields m dv y b -> length a = length b -> dynamic (s_shape s) = false -> s_shape s = s_shape t ->
  s_cls s = KNary (if times then NMul else NAdd) -> ~ reach m y x ->
  exists m', (if times then imul else iadd) x y m = Ok (x, m') /\ yields m' dv x (both times a b) /\ kept m m' dv (fun z => reach m z x).
Proof.
  intros Hs Ht Ya Yb L D Sh C N. destruct (inplace_same m dv x y s t a b times Hs Ht Ya Yb L D Sh C N) as (m' & E & Y & K). exists m'.
  split; [destruct times; exact E|]. split; assumption.
Qed.
Print Assumptions C61_again.

(** Decisions 0, 1, 2; the sum 3 of the first two, built in place; and 4, minus that. *)
Definition ex_sum (times : bool) : pym := Pym
  [Sym (KInteger 0 9) [] [1%Z] true; Sym (KInteger 0 9) [] [1%Z] true; Sym (KInteger 0 9) [] [1%Z] true;
   Sym (KNary (if times then NMul else NAdd)) [0; 1] [1%Z] true; Sym (KUn UNegate) [3] [1%Z] true] None [].
Definition ex_dv : nat -> list num := fun x => match x with O => [zq 2] | 1 => [zq 3] | _ => [zq 5] end.
Lemma ex_not_reach times x y : x <= 2 -> y <> x -> ~ reach (ex_sum times) x y.
Proof. intros L N R. inversion R as [|? s p ? Hs Ip _]; subst; [congruence|]. destruct x as [|[|[|x]]]; [| | |lia]; cbn in Hs; injection Hs as <-; destruct Ip. Qed.
Example C61_ex (times : bool) : wf_shape [1%Z] /\ dynamic [1%Z] = false /\ yields (ex_sum times) ex_dv 3 [zq (if times then 6 else 5)] /\ yields (ex_sum times) ex_dv 2 [zq 5] /\ ~ reach (ex_sum times) 2 3 /\
  (exists m', iadd 3 2 (ex_sum false) = Ok (3, m') /\ yields m' ex_dv 3 [zq 10]) /\ (exists y m', pow 0 3 (ex_sum times) = Ok (y, m') /\ yields m' ex_dv y [zq 8]).
Proof.
  split; [vm_compute; repeat (split || constructor || intro); (reflexivity || discriminate || lia)|]. split; [reflexivity|].
  split; [apply (value_yields 3); destruct times; vm_compute; reflexivity|]. split; [apply (value_yields 3); reflexivity|]. split; [apply ex_not_reach; lia|].
  split; [eexists; split; [reflexivity|apply (value_yields 3); vm_compute; reflexivity]|]. eexists _, _. split; [destruct times; reflexivity|apply (value_yields 3); destruct times; vm_compute; reflexivity].
Qed.

(** [z = -s; s += w] changes [z]: *)
Theorem C61_alias_refuted : exists m dv s w z m' v v',
  bind (integer [1%Z] 0 9) (fun x => bind (integer [1%Z] 0 9) (fun y => bind (integer [1%Z] 0 9) (fun _ => bind (iadd x y) (unop UNegate)))) no_model = Ok (z, m) /\
  yields m dv z v /\ iadd s w m = Ok (s, m') /\ yields m' dv z v' /\ v <> v'.
Proof.
  eexists _, ex_dv, 3, 2, _, _, _, _. split; [vm_compute; reflexivity|]. split; [apply (value_yields 3); vm_compute; reflexivity|]. split; [vm_compute; reflexivity|].
  split; [apply (value_yields 3); vm_compute; reflexivity|]. discriminate.
Qed.
Print Assumptions C61_alias_refuted.
(** [s += s] makes [s] one of the summands of itself: neither it nor anything computed from it has a value. *)
Theorem C61_self_refuted : exists m dv s z m' v, yields m dv s v /\ yields m dv z (map Qcopp v) /\ iadd s s m = Ok (s, m') /\ forall w, ~ yields m' dv s w /\ ~ yields m' dv z w.
Proof.
  exists (ex_sum false), ex_dv, 3, 4. eexists _, [zq 5]. split; [apply (value_yields 3); vm_compute; reflexivity|]. split; [apply (value_yields 4); vm_compute; reflexivity|]. split; [reflexivity|].
  match goal with |- forall w, ~ yields ?m _ _ _ /\ _ => set (m' := m) end.
  assert (N : forall f, value f m' ex_dv 3 = None).
  { induction f as [|f IH]; [reflexivity|]. cbn [value m' p_syms lset nth_error ex_sum s_cls s_pred decided_cls]. fold m'. cbn [map app all_some]. rewrite IH. destruct (value f m' ex_dv 0), (value f m' ex_dv 1); reflexivity. }
  intros w. split; intros Y; apply yields_value in Y as [f E]; [rewrite N in E; discriminate|]. destruct f as [|f]; [discriminate|].
  cbn [value m' p_syms lset nth_error ex_sum s_cls s_pred decided_cls] in E. fold m' in E. cbn [map all_some] in E. rewrite N in E. discriminate.
Qed.
Print Assumptions C61_self_refuted.
(** [p ** 3] of a product built in place does the same to [p]. *)
Theorem C61_product_refuted : exists m dv p m' v, yields m dv p v /\ pow p 3 m = Ok (p, m') /\ forall w, ~ yields m' dv p w.
Proof.
  exists (ex_sum true), ex_dv, 3. eexists _, [zq 6]. split; [apply (value_yields 3); vm_compute; reflexivity|]. split; [reflexivity|].
  match goal with |- forall w, ~ yields ?m _ _ _ => set (m' := m) end.
  assert (N : forall f, value f m' ex_dv 3 = None).
  { induction f as [|f IH]; [reflexivity|]. cbn [value m' p_syms lset nth_error ex_sum s_cls s_pred decided_cls]. fold m'. cbn [map app all_some]. rewrite IH. destruct (value f m' ex_dv 0), (value f m' ex_dv 1); reflexivity. }
  intros w Y. apply yields_value in Y as [f E]. rewrite N in E. discriminate.
Qed.
Print Assumptions C61_product_refuted.
