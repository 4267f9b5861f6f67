(** Flow shop: the modelled makespan against the true one; and that the generators' models decide
    nothing else. *)
From Coq Require Import Permutation.
From Verif Require Import Base Num SliceModel ShapeModel ShapeSpec SliceSpec StateDataModel NodeSpec BinaryModel BasicModel BasicSpec ViewModel ElemModel NaryModel
  ReduceModel BoundsModel PermModel AdvModel NarySpec ReduceSpec BinarySpec ElemSpec PermSpec ViewSpec AdvSpec ProposeSpec PyModel GenModel PySpec GenSpec PyProofs PyValues PyRules GenProofs GenProofs2 GenProofs4 GenProofs5.
Set Implicit Arguments.

(** * The true makespan *)
Lemma qmax_0 a : (0 <= a)%Qc -> qmax a 0 = a.
Proof. intros H. unfold qmax. destruct (qltb_spec a 0%Qc) as [L|]; [|reflexivity]. exfalso. exact (Qclt_not_le _ _ L H). Qed.
Lemma qmax_le a b c d : (a <= c)%Qc -> (b <= d)%Qc -> (qmax a b <= qmax c d)%Qc.
Proof.
  intros H1 H2. unfold qmax. destruct (qltb_spec a b) as [L1|L1], (qltb_spec c d) as [L2|L2]; auto.
  - apply Qcnot_lt_le in L2. exact (Qcle_trans _ _ _ H2 L2).
  - exact (Qcle_trans _ _ _ H1 (Qclt_le_weak _ _ L2)).
Qed.
Lemma machine_le : forall p p' w v v', (v <= v')%Qc -> Forall2 Qcle p p' -> Forall2 Qcle (machine v p w) (machine v' p' w).
Proof.
  induction p as [|a p IH]; intros p' w v v' Hv H; inversion H as [|? b ? q Hab Hr]; subst; [constructor|]. destruct w as [|x w]; [constructor|]. cbn [machine]. cbv zeta.
  assert (E : (qmax a v + x <= qmax b v' + x)%Qc) by (apply Qcplus_le_compat; [now apply qmax_le|apply Qcle_refl]). constructor; [exact E|]. now apply IH.
Qed.
Lemma qsum_nonneg l : Forall (fun x => 0 <= x)%Qc l -> (0 <= qsum_of l)%Qc.
Proof. induction 1 as [|x l H _ IH]; cbn; [apply Qcle_refl|]. revert H IH. generalize (qsum_of l). intros; qlra. Qed.
Lemma held_le order t : order <> [] -> forall P prev prevh,
  Forall (fun row => (0 <= nth (hd O order) row 0)%Qc) P -> Forall2 Qcle prev prevh -> length prev = length order ->
  (0 <= hd 0 prev)%Qc -> (hd 0 prev + qsum_of (map (fun row => nth (hd O order) row 0) P) <= t)%Qc ->
  Forall2 Qcle (machines order prev P) (held_machines order t prevh P).
Proof.
  intros Ho. destruct order as [|o os]; [congruence|]. clear Ho. cbn [hd].
  induction P as [|row P IH]; intros prev prevh HP H Hl H0 Ht; [exact H|]. cbn [machines held_machines]. inversion HP as [|? ? Hr HP']; subst.
  assert (Hsum := @qsum_nonneg (map (fun row => nth o row 0%Qc) P) ltac:(rewrite Forall_map; exact HP')). cbn [map qsum_of] in Ht.
  destruct prev as [|p prev]; [discriminate|]. inversion H as [|? ph ? prevh' Hp Hrest]; subst. cbn [hd map] in *. cbn [machine held_machine]. cbv zeta.
  rewrite qmax_0 by exact H0. set (s := qsum_of _) in *. set (w := nth o row 0%Qc) in *.
  assert (E1 : (p + w <= t)%Qc) by (revert Ht Hr Hsum; generalize s w p; intros; qlra).
  apply IH; auto.
  - constructor; [exact E1|]. now apply machine_le.
  - cbn [length]. f_equal. rewrite machine_length; [now injection Hl|]. rewrite map_length. now injection Hl.
  - cbn [hd]. revert H0 Hr. generalize p w. intros; qlra.
  - cbn [hd]. fold s. revert Ht. generalize s w p. intros; qlra.
Qed.
Lemma hd_machine order row : order <> [] -> hd 0%Qc (machine 0%Qc (map (fun _ => 0%Qc) order) (map (fun j => nth j row 0%Qc) order)) = nth (hd O order) row 0%Qc.
Proof. destruct order as [|o os]; [congruence|]. intros _. cbn. unfold qmax. destruct (qltb 0%Qc 0%Qc); ring. Qed.
Lemma Forall2_last_le l l' : Forall2 Qcle l l' -> (last l 0 <= last l' 0)%Qc.
Proof. intros H. destruct H as [|a b l l' Hab H]; [apply Qcle_refl|]. apply Forall2_last; [|discriminate]. now constructor. Qed.
Theorem makespan_le P order : P <> [] -> order <> [] -> Forall (fun row => (0 <= nth (hd O order) row 0)%Qc) P -> (makespan P order <= held_makespan P order)%Qc.
Proof.
  intros HP0 Ho HP. unfold makespan, held_makespan. destruct P as [|row P]; [congruence|]. cbn [machines]. inversion HP as [|? ? Hr HP']; subst.
  apply Forall2_last_le. apply held_le; [exact Ho|exact HP'| | | |].
  - generalize (machine 0%Qc (map (fun _ => 0%Qc) order) (map (fun j => nth j row 0%Qc) order)). intros l. induction l; constructor; [apply Qcle_refl|assumption].
  - rewrite machine_length; rewrite !map_length; reflexivity.
  - rewrite hd_machine by exact Ho. exact Hr.
  - rewrite hd_machine by exact Ho. cbn [map qsum_of]. apply Qcle_refl.
Qed.
Theorem makespan_two P order : P <> [] -> order <> [] -> Forall (fun row => (0 <= nth (hd O order) row 0)%Qc) P -> length P <= 2 -> makespan P order = held_makespan P order.
Proof.
  intros HP0 Ho HP HL. unfold makespan, held_makespan. destruct P as [|r1 [|r2 [|? ?]]]; [congruence|reflexivity| |cbn in HL; lia].
  cbn [machines held_machines]. f_equal. pose proof (@hd_machine order r1 Ho) as HH.
  inversion HP as [|? ? H1 HP2]; subst. destruct order as [|o os]; [congruence|]. cbn [map hd] in *. cbn [machine] in *. cbv zeta in *. cbn [hd held_machine] in *.
  set (e := (qmax 0 0 + nth o r1 0)%Qc) in *. rewrite HH. cbn [machine]. cbv zeta. rewrite qmax_0 by exact H1. cbn [qsum_of]. rewrite Qcplus_0_r. reflexivity.
Qed.

(** * Counting decisions *)
Definition ndec (m : pym) : nat := length (filter (fun s => decided_cls (s_cls s)) (p_syms m)).
Definition adds {A} (d : nat) (g : py A) : Prop := forall m a m', g m = Ok (a, m') -> ndec m' = ndec m + d.
Lemma adds_bind {A C} d1 d2 (g : py A) (f : A -> py C) : adds d1 g -> (forall a, adds d2 (f a)) -> adds (d1 + d2) (bind g f).
Proof.
  intros Hg Hf m a m' E. unfold bind in E. destruct (g m) as [[b m1]| |] eqn:Eg; try discriminate. rewrite (Hf _ _ _ _ E), (Hg _ _ _ Eg). lia.
Qed.
Lemma adds_ret {A} (a : A) : adds 0 (ret a).
Proof. intros m b m' [= _ <-]. lia. Qed.
Lemma adds_raise {A} d : adds d (@raise A).
Proof. intros m b m' [=]. Qed.
Lemma adds_lift {A} (r : res A) : adds 0 (lift r).
Proof. intros m b m' E. unfold lift in E. destruct r; try discriminate. injection E as _ <-. lia. Qed.
Lemma adds_look x : adds 0 (look x).
Proof. intros m b m' E. unfold look in E. destruct (nth_error _ x); try discriminate. injection E as _ <-. lia. Qed.
Lemma adds_looks xs : adds 0 (looks xs).
Proof.
  induction xs as [|x xs IH]; cbn [looks]; [apply adds_ret|]. change 0 with (0 + (0 + 0)). apply adds_bind; [apply adds_look|]. intros s. apply adds_bind; [exact IH|].
  intros ss. apply adds_ret.
Qed.
Lemma adds_emit c ps sh ct : adds (if decided_cls c then 1 else 0) (emit c ps sh ct).
Proof. intros m b m' E. injection E as _ <-. unfold ndec. cbn. rewrite filter_app, app_length. cbn. now destruct (decided_cls c). Qed.
Lemma adds_emit0 c ps sh ct : decided_cls c = false -> adds 0 (emit c ps sh ct).
Proof. intros H. pose proof (@adds_emit c ps sh ct) as E. now rewrite H in E. Qed.
Lemma adds_emit1 c ps sh ct : decided_cls c = true -> adds 1 (emit c ps sh ct).
Proof. intros H. pose proof (@adds_emit c ps sh ct) as E. now rewrite H in E. Qed.
Lemma adds_bind0 {A C} d (g : py A) (f : A -> py C) : adds 0 g -> (forall a, adds d (f a)) -> adds d (bind g f).
Proof. intros H1 H2. exact (@adds_bind _ _ _ _ _ _ H1 H2). Qed.
Lemma adds_pfor {A C} d (l : list A) (f : C -> A -> py C) b : (forall b x, adds d (f b x)) -> adds (length l * d) (pfor l f b).
Proof. intros H. revert b; induction l as [|x l IH]; intros b; cbn [pfor length Nat.mul]; [apply adds_ret|]. apply adds_bind; [apply H|]. intros a. apply IH. Qed.
Lemma adds_pfor0 {A C} (l : list A) (f : C -> A -> py C) b : (forall b x, adds 0 (f b x)) -> adds 0 (pfor l f b).
Proof. intros H. pose proof (@adds_pfor A C 0 l f b H) as E. now rewrite Nat.mul_0_r in E. Qed.
Lemma adds_unless c : adds 0 (unless c).
Proof. unfold unless. destruct c; [apply adds_raise|apply adds_ret]. Qed.
Lemma adds_the {A} (o : option A) : adds 0 (the o).
Proof. destruct o; [apply adds_ret|apply adds_raise]. Qed.
Ltac adding := repeat first [apply adds_ret | apply adds_raise | apply adds_lift | apply adds_look | apply adds_looks | apply adds_unless | apply adds_the | apply adds_emit0; reflexivity
  | apply adds_bind0; [|intros ?]].
Lemma adds_constant sh v : adds 0 (constant sh v). Proof. unfold constant. adding. Qed.
Lemma adds_red o x : adds 0 (red o x). Proof. unfold red. adding. Qed.
Lemma adds_binop o x y : adds 0 (binop o x y). Proof. unfold binop. adding. Qed.
Lemma adds_nary o xs : adds 0 (nary o xs). Proof. unfold nary. adding. Qed.
Lemma adds_several b o xs : adds 0 (several b o xs).
Proof. unfold several. destruct xs as [|x [|y [|z xs]]]; adding. Qed.
Lemma adds_where c x y : adds 0 (where_ c x y). Proof. unfold where_. adding. Qed.
Lemma adds_basic x ix : adds 0 (basic x ix). Proof. unfold basic. adding. Qed.
Lemma adds_advanced x ix : adds 0 (advanced x ix).
Proof.
  unfold advanced. apply adds_bind0; [adding|]. intros s. apply adds_bind0; [adding|]. intros ss m b m' E.
  refine ((_ : adds 0 (bind (lift (rmap (aix (shape_at m)) ix)) (fun ai => _))) m b m' E). adding.
Qed.
Lemma adds_permutation x o : adds 0 (permutation x o). Proof. unfold permutation. adding. Qed.
Lemma adds_array_getitem x ix : adds 0 (array_getitem x ix).
Proof.
  unfold array_getitem. apply adds_bind0; [adding|]. intros s. cbv zeta. destruct (forallb _ _); [apply adds_basic|].
  destruct (forallb _ _); [apply adds_advanced|]. apply adds_bind0; [apply adds_basic|]. intros b. apply adds_advanced.
Qed.
Lemma adds_getitem x ix : adds 0 (getitem x ix).
Proof.
  unfold getitem. apply adds_bind0; [adding|]. intros s.
  destruct (s_cls s); try apply adds_array_getitem. destruct (s_pred s); try apply adds_array_getitem.
  apply adds_bind0; [adding|]. intros sa.
  repeat match goal with |- adds _ (match ?x with _ => _ end) => destruct x; try apply adds_array_getitem end; apply adds_permutation.
Qed.
Lemma filter_lset {A} (f : A -> bool) l x a b : nth_error l x = Some a -> f b = f a -> length (filter f (lset x b l)) = length (filter f l).
Proof.
  revert x; induction l as [|c l IH]; intros [|x] E Hf; try discriminate; cbn in E |- *.
  - injection E as <-. rewrite Hf. now destruct (f c).
  - specialize (IH x E Hf). destruct (f c); cbn; congruence.
Qed.
Lemma adds_add_node x y : adds 0 (add_node x y).
Proof.
  intros m a m' E. unfold add_node, bind, look in E. destruct (nth_error (p_syms m) x) as [s|] eqn:Ex; [|discriminate]. destruct (nth_error (p_syms m) y) as [t|]; [|discriminate].
  destruct (dynamic _); [discriminate|]. destruct (negb _); [discriminate|]. injection E as _ <-. unfold ndec. cbn [p_syms]. rewrite (@filter_lset _ _ _ _ s); [lia|exact Ex|reflexivity].
Qed.
Lemma adds_inplace o x y : adds 0 (inplace o x y).
Proof. unfold inplace. apply adds_bind0; [adding|]. intros s. destruct (same_nop _ _); [|apply adds_nary]. apply adds_bind0; [apply adds_add_node|]. intros _. adding. Qed.
Lemma adds_minimize x : adds 0 (minimize x).
Proof. unfold minimize. apply adds_bind0; [adding|]. intros s. destruct (_ =? _)%Z; [|adding]. intros m a m' [= _ <-]. unfold ndec. cbn. lia. Qed.
Lemma adds_constraint x : adds 0 (add_constraint x).
Proof. unfold add_constraint. apply adds_bind0; [adding|]. intros s. destruct (_ =? _)%Z; [|adding]. intros m a m' [= _ <-]. unfold ndec. cbn. lia. Qed.
Lemma adds_size x : adds 0 (size x).
Proof. unfold size. apply adds_bind0; [adding|]. intros s. destruct (dynamic _); adding. Qed.
Lemma adds_matrix D : adds 0 (require_matrix D).
Proof. unfold require_matrix. destruct D; [adding|]. destruct (forallb _ _); [|adding]. destruct (forallb _ _); adding. Qed.
Lemma adds_square D : adds 0 (require_square D).
Proof. unfold require_square. apply adds_bind0; [apply adds_matrix|]. intros [r c]. destruct (_ =? _)%Z; adding. Qed.
Lemma adds_vector w : adds 0 (require_vector w). Proof. apply adds_unless. Qed.
Lemma adds_parts one sh main k : (forall i, decided_cls (one i) = true) -> adds k (parts one sh main k).
Proof.
  intros H. unfold parts. pose proof (@adds_pfor nat (list nat) 1 (seq 0 k) (fun xs i => do x <- emit (one i) [main] sh true ; ret (xs ++ [x])) []) as E.
  rewrite seq_length, Nat.mul_1_r in E. apply E. intros b x. change 1 with (1 + 0). apply adds_bind; [apply adds_emit1; apply H|]. intros a. adding.
Qed.
Ltac counting := repeat first [apply adds_ret | apply adds_raise | apply adds_lift | apply adds_look | apply adds_looks | apply adds_unless | apply adds_the
  | apply adds_constant | apply adds_red | apply adds_binop | apply adds_nary | apply adds_several | apply adds_where | apply adds_getitem | apply adds_inplace
  | apply adds_minimize | apply adds_constraint | apply adds_size | apply adds_matrix | apply adds_square | apply adds_vector | apply adds_emit0; reflexivity
  | apply adds_emit1; reflexivity | apply adds_pfor0; intros ? ? | apply adds_bind0; [|intros ?]
  | match goal with |- adds _ (let '(_, _) := ?x in _) => destruct x end
  | match goal with |- adds _ (match ?x with _ => _ end) => destruct x end ].
Lemma adds_bind1 {A C} d (g : py A) (f : A -> py C) : adds d g -> (forall a, adds 0 (f a)) -> adds d (bind g f).
Proof. intros H1 H2. pose proof (@adds_bind _ _ _ _ _ _ H1 H2) as E. now rewrite Nat.add_0_r in E. Qed.
Lemma adds_tsp D : adds 1 (traveling_salesperson D).
Proof. unfold traveling_salesperson. apply adds_bind0; [counting|intros n]. apply adds_bind1; [unfold list_var; counting|intros x]. counting. Qed.
Lemma adds_qap D F : adds 1 (quadratic_assignment D F).
Proof. unfold quadratic_assignment. do 3 (apply adds_bind0; [counting|intros ?]). apply adds_bind1; [unfold list_var; counting|intros x]. counting. Qed.
Lemma adds_knapsack v w c : adds 1 (knapsack v w c).
Proof. unfold knapsack. cbv zeta. do 7 (apply adds_bind0; [counting|intros ?]). apply adds_bind1; [unfold set_var; counting|intros x]. counting. Qed.
Lemma adds_bin_packing w c : adds (length w) (bin_packing w c).
Proof.
  unfold bin_packing. cbv zeta. do 6 (apply adds_bind0; [counting|intros ?]). apply adds_bind1.
  - unfold disjoint_bit_sets. apply adds_bind0; [counting|intros ?]. unfold zlen. rewrite Nat2Z.id. apply adds_bind1; [now apply adds_parts|]. intros. counting.
  - intros [main bins]. unfold ge, iadd. counting.
Qed.
Lemma adds_cvrp_core d k c D o b : adds k (cvrp_core d k c D o b).
Proof.
  unfold cvrp_core. cbv zeta. do 6 (apply adds_bind0; [counting|intros ?]). apply adds_bind1.
  - unfold disjoint_lists. apply adds_bind0; [counting|intros ?]. apply adds_bind1; [now apply adds_parts|]. intros. counting.
  - intros [main bins]. counting.
Qed.
Lemma adds_cvrp d k c D : adds k (capacitated_vehicle_routing d k c D).
Proof. unfold capacitated_vehicle_routing. do 8 (apply adds_bind0; [counting|intros ?]). apply adds_cvrp_core. Qed.
Lemma adds_job_shop t m b : adds 1 (job_shop_scheduling t m b).
Proof.
  unfold job_shop_scheduling. cbv zeta. apply adds_bind0; [counting|intros [jobs k]]. apply adds_bind0; [counting|intros [jobs' k']].
  do 3 (apply adds_bind0; [counting|intros ?]). apply adds_bind0; [destruct b; counting|intros ?]. do 2 (apply adds_bind0; [counting|intros ?]).
  apply adds_bind1; [|intros ?; counting]. unfold integer. destruct (_ && _); [|intros ? ? ? XX; discriminate XX]. destruct (_ || _); counting.
Qed.
Lemma adds_flow_shop P : adds 1 (flow_shop_scheduling P).
Proof.
  unfold flow_shop_scheduling. apply adds_bind0; [counting|intros [ms js]]. do 2 (apply adds_bind0; [counting|intros ?]). apply adds_bind1; [unfold list_var; counting|intros ?].
  unfold first_machine, next_machine, op, iadd. counting.
Qed.

(** With as many decisions known, there are no others. *)
Lemma decisions_count m : length (decisions m) = ndec m.
Proof.
  unfold decisions, ndec, decides. induction (p_syms m) as [|s l IH] using rev_ind; [reflexivity|].
  rewrite app_length. cbn [length]. rewrite Nat.add_1_r, seq_S, !filter_app, !app_length. f_equal.
  - rewrite <- IH. f_equal. apply filter_ext_in. intros x Hx. apply in_seq in Hx. now rewrite nth_error_app1 by lia.
  - cbn. rewrite nth_error_app2, Nat.sub_diag by lia. cbn. now destruct (decided_cls _).
Qed.
Lemma decisions_all m ds : NoDup ds -> ndec m = length ds -> (forall x, In x ds -> exists c sh, decision m x c sh /\ decided_cls c = true) ->
  forall x, In x (decisions m) <-> In x ds.
Proof.
  intros Hd Hn H.
  assert (Hi : incl ds (decisions m)).
  { intros x Hx. destruct (H x Hx) as (c & sh & (ps & ct & E) & Hc). apply filter_In. split.
    - apply in_seq. split; [lia|]. cbn. apply nth_error_Some. congruence.
    - unfold decides. now rewrite E. }
  intros x. split; [|apply Hi]. apply (NoDup_length_incl Hd); [|exact Hi]. rewrite decisions_count. lia.
Qed.
