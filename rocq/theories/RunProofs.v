(** From the contracts of the classes to whole models of the front end. *)
From Coq Require Import Relations Permutation.
From Verif Require Import Base Num SliceModel ShapeModel ShapeSpec StateDataModel NodeSpec NodeLib BinaryModel BasicModel BasicSpec ViewModel ViewSpec ElemModel NaryModel ReduceModel BoundsModel
  PermModel PermSpec AdvModel AdvSpec AdvSpec2 AdvProofs11 NumbersModel CollectionsModel CollectionsSpec CollectionsProofs DisjointModel DisjointSpec DisjointProofs GraphModel GraphSpec GraphProofs GraphProps ProposeModel ProposeSpec ProposeProofs ProposeProofs2 ProposeProofs3 ProposeProps GroupModel GroupSpec GroupProofs GroupProofs2 GroupProofs3
  BinarySpec ElemSpec NarySpec ReduceSpec BinaryProps ElemProps NaryProps ReduceProps PermProps AdvProps ViewProps NumbersProps ViewProofs7
  PartialModel PartialSpec PartialProps QuadModel QuadSpec QuadProofs QuadProofs2 QuadProofs3 QuadProps ConcatProofs2 PyModel PySpec GenSpec PyProofs PyValues PyRules RunModel RunSpec.
Set Implicit Arguments.

(** ** What the nodes guarantee of their changes *)
Definition promise (m : pym) (s : sym) (p : pin num) : Prop :=
  match s_cls s with
  | KConst v => p = still v
  | KInteger lo hi => within (whole lo hi) p /\ allowed (s_cls s) (s_shape s) (pview p)
  | KBinary => within (whole 0 1) p /\ allowed (s_cls s) (s_shape s) (pview p)
  | KList => within (whole 0 (Z.of_nat (Z.to_nat (hd 0%Z (s_shape s))) - 1)) p /\ allowed (s_cls s) (s_shape s) (pview p)
  | KSet n => within (whole 0 (Z.of_nat (Z.to_nat n) - 1)) p /\ allowed (s_cls s) (s_shape s) (pview p)
  | KLists z k => let n := Z.to_nat z in group_ok (lgood n k) (whole 0 (Z.of_nat n - 1)) false p
  | KBits z k => let n := Z.to_nat z in group_ok (bits_partition n k) (whole 0 1) true p
  | KListOf _ z _ _ => within (whole 0 (Z.of_nat (Z.to_nat z) - 1)) p
  | KBitOf _ _ _ _ => within (whole 0 1) p
  | KBasic _ => match s_pred s with
                | [y] => index_at m y -> shape_at m y = [-1]%Z -> Forall (fun u => forall x, uval u = Some x -> exists z, x = zq z) (pdiff p)
                | _ => True
                end
  | _ => True
  end.
Definition promise_at (m : pym) (x : nat) (p : pin num) : Prop := match nth_error (p_syms m) x with Some s => promise m s p | None => True end.
Definition fun_of (m : pym) (s : sym) : list (list num) -> option (list num) :=
  match s_cls s with
  | KListOf _ z _ i => part_fun None 0 (Z.of_nat (Z.to_nat z) - 1) i
  | KBitOf _ z _ i => part_fun (Some (Z.to_nat z)) 0 1 i
  | c => meaning c (shapes_of m (s_pred s))
  end.
Definition fun_at (m : pym) (x : nat) (ins : list (list num)) : option (list num) := match nth_error (p_syms m) x with Some s => fun_of m s ins | None => None end.

Lemma numbers_of (v : list num) k : Forall (whole 0 (Z.of_nat k - 1)) v -> exists p, v = numbers p /\ Forall (fun i => i < k) p.
Proof.
  intros H. induction H as [|x v (z & -> & Hz) _ (p & -> & Hp)]; [exists []; split; [reflexivity|constructor]|].
  exists (Z.to_nat z :: p). split; [cbn [numbers map]; now rewrite Z2Nat.id by lia|]. constructor; [lia|exact Hp].
Qed.
Lemma numbers_nodup p : NoDup (numbers p) -> NoDup p.
Proof. apply NoDup_map_inv. Qed.
Lemma all_numbers p k : NoDup p -> Forall (fun i => i < k) p -> length p = k -> Permutation p (seq 0 k).
Proof.
  intros H1 H2 H3. apply NoDup_Permutation_bis; [exact H1|rewrite seq_length; lia|]. intros x Hx. rewrite Forall_forall in H2. apply in_seq. specialize (H2 x Hx). lia.
Qed.

(** ** One node *)
Section One.
Variables strict dbg : bool.
Variable m : pym.
Hypothesis wf : all_sound strict dbg m.
Notation N := (nodes strict dbg m).

Lemma sound_at x s : nth_error (p_syms m) x = Some s -> sound strict dbg m s.
Proof. intros H. unfold all_sound in wf. rewrite Forall_forall in wf. apply wf. eapply nth_error_In; eauto. Qed.
Lemma wf_at y : wf_shape (shape_at m y).
Proof.
  unfold shape_at. destruct (nth_error (p_syms m) y) as [s|] eqn:E; [apply (sound_at _ E)|]. split; [constructor|]. split; [cbn; lia|exact I].
Qed.

(** The index arrays. *)
Lemma index_arrays spec : forall shs, length (filter (fun b => b) spec) = length shs -> map is_arr (index_list spec shs) = spec.
Proof.
  induction spec as [|[|] t IH]; intros shs H; cbn [filter] in H; [reflexivity| |].
  - destruct shs as [|s r]; [discriminate|]. cbn [index_list map is_arr]. f_equal. apply IH. cbn in H. lia.
  - cbn [index_list map is_arr]. f_equal. apply IH. exact H.
Qed.
Lemma shapes_repeat ys sh : Forall (fun z => shape_at m z = sh) ys -> shapes_of m ys = repeat sh (length ys).
Proof. intros H. induction H as [|z ys E _ IH]; [reflexivity|]. cbn. unfold shapes_of in IH. now rewrite E, IH. Qed.
(** What is added to an index array is a whole number. *)
Lemma index_promise y p : index_at m y -> promise_at m y p -> exists a b, within (whole a b) p.
Proof.
  intros (s & E & Hc). unfold promise_at. rewrite E. unfold promise. destruct (s_cls s); try discriminate; [intros [H _]|intros H]; eauto.
Qed.
Lemma index_moves ys : Forall (fun z => dynamic (shape_at m z) = false \/ indices m z) ys ->
  forall ins pins, length ys = length ins -> Forall2 (fun si p => pin_ok qeqb (fst si) (snd si) p) (combine (shapes_of m ys) ins) pins ->
  Forall2 (fun (G : pin num -> Prop) p => G p) (map (promise_at m) ys) pins ->
  Forall (fun p => Forall (fun u => uold u = None -> forall x, uval u = Some x -> exists z, x = zq z) (pdiff p)) pins.
Proof.
  intros H. induction H as [|y ys Hy _ IH]; intros ins pins L H1 H2.
  - cbn in H2. inversion H2; subst. constructor.
  - destruct ins as [|i ins]; [discriminate|]. cbn [shapes_of map combine] in H1. cbn [map] in H2. inversion H1 as [|? p ? pins' P1 H1' ]; subst. inversion H2 as [|? ? ? ? G1 H2']; subst.
    constructor; [|apply (IH ins); auto; now injection L]. cbn [fst snd] in P1. destruct Hy as [Hs|[Hz|(ix & z & sh & ct & Hn & Hz & Hs)]].
    + pose proof (po_fixed _ _ _ _ P1 Hs) as Hf. eapply Forall_impl; [|exact Hf]. intros u [Hu _] E. contradiction.
    + destruct (index_promise p Hz G1) as (a & b & _ & G2).
      eapply Forall_impl; [|exact G2]. intros u Hu _ x Hx. destruct (Hu x (or_intror Hx)) as (z & -> & _). eauto.
    + unfold promise_at in G1. rewrite Hn in G1. unfold promise in G1. cbn [s_cls s_pred] in G1. eapply Forall_impl; [|exact (G1 Hz Hs)]. intros u Hu _. exact Hu.
Qed.
Lemma konst_promise y p : konst_at m y = true -> promise_at m y p -> pdiff p = [].
Proof.
  unfold konst_at, promise_at. destruct (nth_error (p_syms m) y) as [[[] ? ? ?]|]; try discriminate. unfold promise. cbn [s_cls]. intros _ ->. reflexivity.
Qed.

Definition good (s : sym) : Prop := let r := node_of strict dbg m s in
  vn_shape (r_node r) = s_shape s /\ vn_pre (r_node r) = shapes_of m (s_pred s) /\
  if source_cls (s_cls s) then ProposeSpec.decides qeqb (r_node r) (promise m s) (r_start r) (r_move r) /\ exists d, vn_init (r_node r) [] = Ok d /\ r_start r d
  else computes qeqb (r_node r) (map (promise_at m) (s_pred s)) (promise m s) (fun_of m s).

Lemma computes_promise s r Gs F : (forall p, promise m s p) -> computes qeqb r Gs (fun _ => True) F -> computes qeqb r Gs (promise m s) F.
Proof.
  intros HP (clean & C1 & C2 & C3). exists clean. split; [exact C1|]. split.
  - intros ins t Hc. destruct (C2 ins t Hc) as (v & A & _ & B). exists v. auto.
  - intros ins t v pins v' H1 H2 H3 H4 H5 H6. destruct (C3 ins t v pins v' H1 H2 H3 H4 H5 H6) as (s' & A & (p & B1 & B2 & B3 & _) & C). exists s'. split; [exact A|]. split; [|exact C]. exists p. auto.
Qed.
Lemma computes_more s r Gs F : (forall v, promise m s (still v)) -> (forall t pins t' p, Forall2 (fun (G : pin num -> Prop) p => G p) Gs pins -> vn_prop r t pins = Ok t' -> vn_out r t' pins = Some p -> promise m s p) ->
  computes qeqb r Gs (fun _ => True) F -> computes qeqb r Gs (promise m s) F.
Proof.
  intros HS HP (clean & C1 & C2 & C3). exists clean. split; [exact C1|]. split.
  - intros ins t Hc. destruct (C2 ins t Hc) as (v & A & _ & B). exists v. auto.
  - intros ins t v pins v' H1 H2 H3 H4 H5 H6. destruct (C3 ins t v pins v' H1 H2 H3 H4 H5 H6) as (s' & A & (p & B1 & B2 & B3 & _) & C). exists s'. split; [exact A|]. split; [|exact C]. exists p. eauto 6.
Qed.
Lemma good_node s (Nd : node num) F : node_of strict dbg m s = plain (ProposeModel.lift Nd) -> source_cls (s_cls s) = false -> (forall p, promise m s p) ->
  nd_shape Nd = s_shape s -> nd_pre Nd = shapes_of m (s_pred s) -> node_ok qeqb Nd F -> F = fun_of m s -> good s.
Proof.
  intros E D P H1 H2 H3 ->. unfold good. cbv zeta. rewrite E, D. cbn [r_node plain ProposeModel.lift vn_shape vn_pre]. split; [exact H1|]. split; [exact H2|].
  apply computes_promise; [exact P|]. now apply node_computes.
Qed.
Ltac use s := destruct s as [c ps sh ct]; cbn [s_cls s_pred s_shape s_contig] in *.

Lemma number_gen sh n : constructed n -> isize n = Z.to_nat (prod sh) -> dynamic sh = false -> (0 <= prod sh)%Z ->
  ProposeSpec.decides qeqb (number_vnode sh n) (fun p => within (whole (ilo n) (ihi n)) p /\ Z.of_nat (length (pview p)) = prod sh /\ Forall (whole (ilo n) (ihi n)) (pview p)) (number_start n) (number_move n) /\
  exists d, vn_init (number_vnode sh n) [] = Ok d /\ number_start n d.
Proof.
  intros Hn Hs D P. split.
  - assert (Q : ProposeSpec.decides qeqb (number_vnode sh n) (within (whole (ilo n) (ihi n))) (number_start n) (number_move n)) by (apply C17_number; [exact Hn|exact D|rewrite Hs; lia]).
    destruct Q as (clean & C1 & C2 & C3). exists clean.
    assert (L : forall v : list num, fits sh v -> Z.of_nat (length v) = prod sh) by (intros v Hv; unfold fits, fits_len in Hv; now rewrite D in Hv).
    split; [exact C1|]. split.
    + intros v s Hc. destruct (C2 v s Hc) as (A & B & C). split; [exact A|]. split; [|exact C]. split; [exact B|]. cbn [still pview]. split; [now apply L|apply B].
    + intros v s s' Hc Hr. destruct (C3 v s s' Hc Hr) as (A & (p & B1 & B2 & B3 & B4) & C). split; [exact A|]. split; [|exact C]. exists p. split; [exact B1|]. split; [exact B2|].
      split; [|exact B4]. split; [exact B3|]. split; [apply L, B2|apply B3].
  - exists (a_init (repeat (default_value n) (isize n))). 
    assert (E : number_init_default n = Ok (a_init (repeat (default_value n) (isize n)))) by exact (proj1 (C05_number_init_default n Hn)).
    split; [exact E|]. exists (repeat (default_value n) (isize n)). exact E.
Qed.
Lemma number_good sh ct lo hi : sound strict dbg m (Sym (KInteger lo hi) [] sh ct) -> good (Sym (KInteger lo hi) [] sh ct).
Proof.
  intros (_ & W & D & P & H1 & H2 & H3). cbn [s_cls s_pred s_shape] in *. unfold good, node_of. cbn [s_cls s_pred s_shape shapes_of map source_cls r_node r_start r_move number_vnode vn_shape vn_pre].
  split; [reflexivity|]. split; [reflexivity|].
  refine (@number_gen sh {| isize := Z.to_nat (prod sh); ilo := lo; ihi := hi; ibinary := false |} _ eq_refl D P).
  left. exists (Z.to_nat (prod sh)), (Some lo), (Some hi). unfold integer_node. replace (hi <? lo)%Z with false by lia. unfold minimum_lower_bound, maximum_upper_bound.
  replace (lo <? -2000000000)%Z with false by lia. replace (2000000000 <? hi)%Z with false by lia. reflexivity.
Qed.
Lemma binary_good sh ct : sound strict dbg m (Sym KBinary [] sh ct) -> good (Sym KBinary [] sh ct).
Proof.
  intros (_ & W & D & P). cbn [s_cls s_pred s_shape] in *. unfold good, node_of. cbn [s_cls s_pred s_shape shapes_of map source_cls r_node r_start r_move number_vnode vn_shape vn_pre].
  split; [reflexivity|]. split; [reflexivity|].
  refine (@number_gen sh (binary_node (Z.to_nat (prod sh))) _ eq_refl D P). right. eauto.
Qed.
Lemma collection_good mv lo hi default s0 (A : pin num -> Prop) : collection_node mv lo hi = Some (CNode mv lo hi) ->
  default = Ok s0 -> collection_start (CNode mv lo hi) s0 -> (forall p, collected (CNode mv lo hi) p -> A p) ->
  let n := CNode mv lo hi in
  ProposeSpec.decides qeqb (collection_vnode n default) A (collection_start n) (collection_move n) /\ exists d, vn_init (collection_vnode n default) [] = Ok d /\ collection_start n d.
Proof.
  intros Hn E S HA n. split; [|exists s0; auto]. eapply decides_weaken; [exact HA|]. apply collection_collects. exists mv, lo, hi. exact Hn.
Qed.
Lemma list_good sh ct : sound strict dbg m (Sym KList [] sh ct) -> good (Sym KList [] sh ct).
Proof.
  intros (_ & W & n & Hn). cbn [s_cls s_pred s_shape] in *. unfold good, node_of. cbn [s_cls s_pred s_shape shapes_of map source_cls r_node r_start r_move collection_vnode vn_shape vn_pre].
  subst sh. cbn [hd]. rewrite Nat2Z.id. split; [unfold c_dynamic; cbn [cmin cmax]; now rewrite Nat.eqb_refl|]. split; [reflexivity|].
  eapply collection_good; [unfold collection_node; now rewrite Nat.ltb_irrefl|reflexivity|right; left; reflexivity|].
  intros p ((H1 & H2) & H3 & H4). unfold promise. cbn [s_cls s_shape allowed hd]. rewrite Nat2Z.id. cbn [cmaxval cmin cmax] in *. split; [split; assumption|].
  destruct (numbers_of _ H1) as (q & E & F). rewrite E in *. exists q. split; [|reflexivity]. apply all_numbers; [now apply numbers_nodup|exact F|]. rewrite numbers_length in H4. lia.
Qed.
Lemma set_good z sh ct : sound strict dbg m (Sym (KSet z) [] sh ct) -> good (Sym (KSet z) [] sh ct).
Proof.
  intros (_ & W & Hz & Hs). cbn [s_cls s_pred s_shape] in *. unfold good, node_of. cbn [s_cls s_pred s_shape shapes_of map source_cls r_node r_start r_move collection_vnode vn_shape vn_pre].
  subst sh. split; [unfold c_dynamic; cbn [cmin cmax]; destruct (Z.eqb_spec z 0) as [->|]; [reflexivity|]; destruct (Nat.eqb_spec 0 (Z.to_nat z)); [lia|reflexivity]|]. split; [reflexivity|].
  eapply collection_good; [unfold collection_node; now rewrite Nat.ltb_irrefl|reflexivity|right; right; reflexivity|].
  intros p ((H1 & H2) & H3 & H4). unfold promise. cbn [s_cls s_shape allowed]. cbn [cmaxval cmin cmax] in *. split; [split; assumption|].
  destruct (numbers_of _ H1) as (q & E & F). rewrite E in *. exists q. split; [now apply numbers_nodup|]. split; [exact F|reflexivity].
Qed.

Lemma lists_good z k sh ct : sound strict dbg m (Sym (KLists z k) [] sh ct) -> good (Sym (KLists z k) [] sh ct).
Proof.
  intros (_ & W & Hz & Hk & Hs). cbn [s_cls s_pred s_shape] in *. unfold good, node_of. cbn [s_cls s_pred s_shape shapes_of map source_cls r_node r_start r_move lists_vnode vn_shape vn_pre].
  subst sh. split; [reflexivity|]. split; [reflexivity|]. split; [apply lists_decides; lia|].
  destruct (dl_init_default_spec (Z.to_nat z) k) as [E _]; [lia|]. eexists. split; [cbn; rewrite E; reflexivity|now left].
Qed.
Lemma bits_good z k sh ct : sound strict dbg m (Sym (KBits z k) [] sh ct) -> good (Sym (KBits z k) [] sh ct).
Proof.
  intros (_ & W & Hz & Hk & Hs). cbn [s_cls s_pred s_shape] in *. unfold good, node_of. cbn [s_cls s_pred s_shape shapes_of map source_cls r_node r_start r_move bits_vnode vn_shape vn_pre].
  subst sh. split; [reflexivity|]. split; [reflexivity|]. split; [apply bits_decides; lia|].
  destruct (bs_init_default_spec (Z.to_nat z) k) as (d & E & _); [lia|]. exists d. split; [cbn; rewrite E; reflexivity|now left].
Qed.
Lemma main_at y c : option_map s_cls (nth_error (p_syms m) y) = Some c -> main_cls c = true -> exists s, nth_error (p_syms m) y = Some s /\ s_cls s = c /\ shape_at m y = [-1]%Z.
Proof.
  intros H Hc. destruct (nth_error (p_syms m) y) as [s|] eqn:E; [|discriminate]. injection H as H. exists s. split; [reflexivity|]. split; [exact H|]. unfold shape_at. rewrite E.
  destruct (sound_at _ E) as (_ & _ & S). rewrite H in S. destruct c; try discriminate; (destruct (s_pred s); [|contradiction]); apply S.
Qed.
Lemma list_of_good main z k i y sh ct : sound strict dbg m (Sym (KListOf main z k i) [y] sh ct) -> good (Sym (KListOf main z k i) [y] sh ct).
Proof.
  intros (_ & W & -> & Hm & Hi & Hs). cbn [s_cls s_pred s_shape] in *. subst sh. destruct (main_at _ Hm eq_refl) as (s & E & Ec & Es).
  unfold good, node_of. cbn [s_cls s_pred s_shape shapes_of map source_cls r_node plain part_vnode vn_shape vn_pre]. rewrite Es. split; [reflexivity|]. split; [reflexivity|].
  unfold promise_at. rewrite E. unfold promise, fun_of. cbn [s_cls]. rewrite Ec. exact (part_computes (lgood (Z.to_nat z) k) None 0 (Z.of_nat (Z.to_nat z) - 1) i).
Qed.
Lemma bit_of_good main z k i y sh ct : sound strict dbg m (Sym (KBitOf main z k i) [y] sh ct) -> good (Sym (KBitOf main z k i) [y] sh ct).
Proof.
  intros (_ & W & -> & Hm & Hi & Hz & Hs). cbn [s_cls s_pred s_shape] in *. subst sh. destruct (main_at _ Hm eq_refl) as (s & E & Ec & Es).
  unfold good, node_of. cbn [s_cls s_pred s_shape shapes_of map source_cls r_node plain part_vnode vn_shape vn_pre]. rewrite Es. split; [reflexivity|]. split; [reflexivity|].
  unfold promise_at. rewrite E. unfold promise, fun_of. cbn [s_cls]. rewrite Ec. rewrite <- (Z2Nat.id z Hz) at 1. exact (part_computes (bits_partition (Z.to_nat z) k) (Some (Z.to_nat z)) 0 1 i).
Qed.

Lemma strides_packed sh : packed sh (shape_to_strides sh).
Proof. induction sh as [|d sh IH]; [exact I|]. rewrite ShapeProofs.strides_cons. cbn [packed]. split; [left; unfold itemsize; lia|exact IH]. Qed.

Lemma strides_nonneg sh : Forall (fun d => 0 <= d)%Z sh -> Forall (fun z => 0 <= z)%Z (shape_to_strides sh).
Proof.
  intros H. induction H as [|d sh Hd H IH]; [constructor|]. rewrite ShapeProofs.strides_cons. constructor; [|exact IH].
  assert (0 <= prod sh)%Z by (clear - H; induction H; cbn; nia). unfold itemsize. nia.
Qed.
Lemma filled_quad q : filled q -> node_ok qeqb (qn_node q) (q_fun (qm_n q) (reported q)).
Proof.
  intros (q0 & ops & E & F & Eq). destruct (new_rep _ _ E) as [R0 _]. rewrite Nat2Z.id in R0. destruct (run_qops_ok ops _ _ _ R0 F) as (q1 & Eq1 & R). assert (q1 = q) by congruence. subst q1.
  pose proof (spec_sym (qm_n q) ops no_biases (fun _ _ => eq_refl)) as S. set (b := fold_left (spec_qop (qm_n q)) ops no_biases) in *.
  apply quad_ok.
  - apply (rep_ext q (qm_n q) b); [exact R| |].
    + intros i Hi. cbn [reported b_lin]. now rewrite (get_lin_ok _ _ _ i R Hi).
    + intros i j Hi Hj. cbn [reported b_quad]. now rewrite (get_quad_ok _ _ _ i j R Hi Hj).
  - intros i j. cbn [reported b_quad]. destruct (Nat.lt_ge_cases i (qm_n q)) as [Hi|Hi], (Nat.lt_ge_cases j (qm_n q)) as [Hj|Hj].
    1: now rewrite (get_quad_ok _ _ _ i j R Hi Hj), (get_quad_ok _ _ _ j i R Hj Hi), S.
    all: unfold get_quadratic; repeat match goal with |- context [?n <=? ?k] => destruct (Nat.leb_spec n k); try lia end; reflexivity.
Qed.
Lemma range_shape a p : basic_new (-1) [-1]%Z [8]%Z true [ISlice a] = Ok (p, true) -> tl (p_shape p) = [].
Proof.
  unfold basic_new. destruct (BasicModel.parse (-1) [-1]%Z [8]%Z true [ISlice a]) as [q| |] eqn:E; cbn [rbind]; try discriminate. unfold BasicModel.parse in E. cbn [length Nat.ltb Nat.leb negb combine] in E. change (-1 <? 0)%Z with true in E.
  cbn [parse_loop] in E. destruct (_ =? _)%Z; [discriminate|]. destruct (_ <? _)%Z; [discriminate|]. cbn [rbind p_shape p_strides p_start] in E. injection E as <-. cbn [p_shape p_strides]. destruct (is_contiguous _ _) as [b|]; [|discriminate]. intros [= <- _]. reflexivity.
Qed.
Lemma sound_good s : sound strict dbg m s -> good s.
Proof.
  use s. destruct c.
  - intros (P & W & H). cbn [s_cls s_pred s_shape] in *. destruct ps; [|contradiction]. unfold good, node_of. cbn [s_cls s_pred s_shape shapes_of map source_cls r_node plain constant_vnode vn_shape vn_pre].
    split; [reflexivity|]. split; [reflexivity|]. cbn [fun_of s_cls meaning]. apply (constant_computes qeqb sh v H).
  - intros H. destruct ps; [|destruct H as (_ & _ & [])]. now apply number_good.
  - intros H. destruct ps; [|destruct H as (_ & _ & [])]. now apply list_good.
  - intros H. destruct ps; [|destruct H as (_ & _ & [])]. now apply set_good.
  - intros H. destruct ps; [|destruct H as (_ & _ & [])]. exact (@lists_good _ _ _ _ H).
  - intros H. destruct ps as [|y [|]]; try (exfalso; exact (proj2 (proj2 H))). exact (@list_of_good _ _ _ _ _ _ _ H).
  - intros H. destruct ps; [|destruct H as (_ & _ & [])]. exact (@bits_good _ _ _ _ H).
  - intros H. destruct ps as [|y [|]]; try (exfalso; exact (proj2 (proj2 H))). exact (@bit_of_good _ _ _ _ _ _ _ H).
  - intros (P & W & H). cbn [s_cls s_pred s_shape] in *. destruct ps as [|y [|]]; try contradiction. cbv zeta in H. destruct H as (C & (p & Hp & Es) & H).
    unfold good, node_of. cbn [s_cls s_pred s_shape shapes_of map source_cls]. rewrite C, Hp. cbn [made fst snd plain r_node view_node vn_shape vn_pre].
    split; [exact Es|]. split; [reflexivity|]. cbn [fun_of s_cls meaning]. destruct H as [(D & B & E)|(Ey & a & -> & Ha)].
    + apply computes_promise; [intros q; unfold promise; cbn [s_cls s_pred]; intros _ K; rewrite K in D; discriminate|]. apply vnode_computes.
      apply (C36_fixed qeqb qeqb_spec dbg _ _ _ _ (wf_at y) D (strides_packed _) B Hp). now rewrite Es.
    + apply computes_more; [intros v; unfold promise; cbn [s_cls s_pred still pdiff]; constructor| |].
      * intros t pins t' q G Et Eq. unfold promise. cbn [s_cls s_pred]. intros Hi _. cbn [map] in G. inversion G as [|? pa ? l Ga G']; subst. inversion G'; subst.
        cbn [view_node vn_prop vn_out one] in Et, Eq. destruct (bview _ _ _ _) as [w|]; [|discriminate]. injection Eq as <-. cbn [pdiff].
        destruct (index_promise pa Hi Ga) as (lo & hi & G1 & G2). rewrite Ey in *. 
        assert (Hb : Forall (ViewProofs7.brings (fun x : num => exists z, x = zq z)) (b_diff t')); [|exact Hb].
        eapply ViewProofs7.view_brings; [|  | |exact Et].
        -- apply (ViewProofs6.dy_vdyn [] [] 8 a [] p); auto; [cbn; auto|]. rewrite (@range_shape _ _ Hp). constructor.
        -- eapply Forall_impl; [|exact G1]. intros x (z & -> & _). eauto.
        -- eapply Forall_impl; [|exact G2]. intros u Hu x Hx. destruct (Hu x (or_intror Hx)) as (z & -> & _). eauto.
      * apply vnode_computes. cbn [fun_of s_cls s_pred shapes_of map meaning]. rewrite Ey in *. pose proof (@range_shape _ _ Hp) as Sp. destruct (Z.ltb_spec (sstart a) 0).
        -- apply (C36_cached qeqb qeqb_spec dbg [] 8 [] a [] p); auto; [cbn; auto|rewrite Sp; constructor].
        -- apply (C36_rows qeqb qeqb_spec dbg [] 8 [] a [] p); auto; [cbn; auto|rewrite Sp; constructor].
  - intros (P & W & H). cbn [s_cls s_pred s_shape] in *. destruct ps as [|y ys]; try contradiction. cbv zeta in H. destruct H as (D & A & HA & Eo & El & Ei & Hs & Hst & Hix).
    unfold good, node_of. cbn [s_cls s_pred s_shape shapes_of map source_cls]. fold (shapes_of m ys). rewrite HA. cbn [made plain r_node ProposeModel.lift vn_shape vn_pre adv_node nd_shape nd_pre].
    pose proof (AdvProofs11.adv_new_ok _ _ _ _ _ HA) as (OK & E1 & E2). rewrite index_arrays in E2 by (unfold shapes_of; now rewrite map_length).
    split; [exact Eo|]. split; [rewrite E1, E2, El, (shapes_repeat Ei); reflexivity|]. unfold fun_of, meaning. cbn [s_cls s_pred shapes_of map]. rewrite D. apply computes_promise; [intros; exact I|].
    eapply node_given_computes; [|pose proof (C35_node strict dbg (shape_at m y) (Some 0%Z) (index_list spec (shapes_of m ys)) A (konst_at m y) 0 HA (wf_at y)) as Q; rewrite index_arrays in Q by (unfold shapes_of; now rewrite map_length); apply Q; [exact Hs|intros S; split; [now apply Hst|left; exact D]]].
    intros ins pins L Hp Hg. cbn [adv_node nd_pre] in L, Hp. rewrite E1, E2, El in L, Hp. rewrite <- (shapes_repeat Ei) in Hp. destruct ins as [|i ins]; [discriminate|]. cbn [combine] in Hp. inversion Hp as [|? p ? pins' P1 Hp']; subst. cbn [map] in Hg. inversion Hg as [|? ? ? ? G1 Hg']; subst.
    cbn [adv_moves]. split; [intros K; now apply (konst_promise y)|]. split; [rewrite D; discriminate|]. apply (index_moves Hix ins); auto. cbn [length] in L. rewrite repeat_length in L. now injection L.
  - intros (P & W & H). cbn [s_cls s_pred s_shape] in *. destruct ps as [|y [|z [|]]]; try contradiction. destruct H as (n & Hn & Hb & Es & Ey & Ez & K & Hz).
    unfold good, node_of. cbn [s_cls s_pred s_shape shapes_of map source_cls]. rewrite Ey, Ez. cbn [hd length plain r_node]. rewrite Nat2Z.id. split; [cbn; now rewrite Es|]. split; [reflexivity|].
    unfold fun_of, meaning. cbn [s_cls s_pred shapes_of map]. rewrite Ey. cbn [hd length]. rewrite Nat2Z.id. apply computes_promise; [intros; exact I|].
    apply (node_if_computes qeqb _ _ _ (perm_moves n)); [|apply C37_moves; [exact Hn|cbn [Nat.pow]; lia]].
    intros pins Hg. inversion Hg as [|? pa ? l1 Ga H1]; subst. inversion H1 as [|? po ? l2 Go H2]; subst. inversion H2; subst. split; [now apply (konst_promise y)|].
    assert (Hw : within (whole 0 (Z.of_nat n - 1)) po).
    { unfold promise_at in Go. destruct (nth_error (p_syms m) z) as [[cz pz sz tz]|] eqn:Enz; [|contradiction]. cbn [option_map s_cls] in Hz.
      assert (sz = [Z.of_nat n]) by (unfold shape_at in Ez; now rewrite Enz in Ez). subst sz. unfold promise in Go. destruct cz; try contradiction; cbn [s_cls s_shape hd] in Go; destruct Go as [Go _].
      - destruct Go as [G1 G2]. split; [eapply Forall_impl; [|exact G1]|eapply Forall_impl; [|exact G2]; cbn beta; intros u Hu x Hx; specialize (Hu x Hx); revert Hu; generalize x];
          intros ? (q & -> & Hq); exists q; (split; [reflexivity|lia]).
      - rewrite Nat2Z.id in Go. exact Go. }
    destruct Hw as [_ Hw]. eapply Forall_impl; [|exact Hw]. intros u Hu x Hx. destruct (Hu x Hx) as (q & -> & Hq). rewrite <- (Z2Nat.id q) by lia. rewrite below_nat by lia. discriminate.
  - intros (P & W & H). cbn [s_cls s_pred s_shape] in *. destruct ps as [|y [|]]; try contradiction. destruct H as [Ho ->].
    eapply good_node with (F := un_fun (uop_func (fun x => x) o)); [reflexivity|reflexivity|intros; exact I|reflexivity|reflexivity| |destruct o; try reflexivity; contradiction].
    apply (C26_unary_node num qeqb 0%Qc qeqb_spec).
  - intros (P & W & H). cbn [s_cls s_pred s_shape] in *. destruct ps as [|y [|z [|]]]; try contradiction. destruct H as (H1 & H2 & H3).
    eapply good_node with (F := bin_fun (bop_total o) (shape_at m y) (shape_at m z)); [unfold node_of; cbn [s_cls s_pred shapes_of map]; rewrite H3; cbn [made]; reflexivity|reflexivity|intros; exact I|reflexivity|reflexivity| |destruct o; try reflexivity; contradiction].
    apply (C25_binary_node num qeqb 0%Qc qeqb_spec); auto using wf_at.
  - intros (P & W & H). cbn [s_cls s_pred s_shape] in *.
    assert (Wl : Forall wf_shape (shapes_of m ps)) by (apply Forall_forall; intros q Hq; apply in_map_iff in Hq; destruct Hq as (y & <- & _); apply wf_at).
    destruct (C27_nary_node o _ _ Wl H) as [_ Hk].
    eapply good_node; [unfold node_of; cbn [s_cls s_pred]; rewrite H; destruct ps; reflexivity|reflexivity|intros; exact I|reflexivity|reflexivity|exact Hk|reflexivity].
  - intros (P & W & H). cbn [s_cls s_pred s_shape] in *. destruct ps as [|y [|]]; try contradiction. destruct H as (Es & i & Hi).
    eapply good_node with (F := red_fun o i); [unfold node_of; cbn [s_cls s_pred shapes_of map]; rewrite Hi; cbn [made]; reflexivity|reflexivity|intros; exact I|symmetry; exact Es|reflexivity|apply (C28_reduce_node _ _ _ _ Hi)|].
    change (red_fun o i = red_fun o (identity_of o)). f_equal. revert Hi. unfold red_new. destruct o; cbn [identity_of]; try congruence; (destruct (shape_to_size (shape_at m y) <? 0)%Z; [congruence|]); (destruct (shape_to_size (shape_at m y) <? 1)%Z; congruence).
  - intros (P & W & H). cbn [s_cls s_pred s_shape] in *. destruct ps as [|c [|y [|z [|]]]]; try contradiction.
    destruct (C30_where_node num qeqb 0%Qc qeqb_spec q2b _ _ _ _ (wf_at c) (wf_at y) H) as (E1 & E2 & Hk).
    eapply good_node; [unfold node_of; cbn [s_cls s_pred shapes_of map]; rewrite H; cbn [made]; reflexivity|reflexivity|intros; exact I|reflexivity|reflexivity|exact Hk|reflexivity].
  - intros (P & W & H). cbn [s_cls s_pred s_shape] in *. destruct ps as [|y [|]]; try contradiction.
    eapply good_node; [reflexivity|reflexivity|intros; exact I|symmetry; exact H|reflexivity|apply (C32_size_node num qeqb qeqb_spec)|reflexivity].
  - intros H. destruct ps; [|destruct H as (_ & _ & [])]. now apply binary_good.
  - intros (P & W & H). cbn [s_cls s_pred s_shape] in *. destruct ps as [|y [|]]; try contradiction. destruct H as [C H].
    destruct (C32_reshape_node num qeqb _ _ _ _ (wf_at y) W H) as (_ & _ & _ & Hk).
    eapply good_node; [reflexivity|reflexivity|intros; exact I|reflexivity|reflexivity|exact Hk|reflexivity].
  - intros (P & W & H). cbn [s_cls s_pred s_shape] in *. destruct ps as [|y [|]]; try contradiction. destruct H as (C & H & B).
    pose proof (C29_axis_sum_node dbg _ _ _ _ 0%Qc _ (wf_at y) H (C29_contiguous_layout (shape_at m y))) as Hk. rewrite Nat2Z.id in Hk.
    eapply good_node; [reflexivity|reflexivity|intros; exact I|reflexivity|reflexivity|apply Hk|reflexivity].
    intros Hd. split; [now apply B|]. apply strides_nonneg. apply C29_accepts in H; [|apply wf_at]. destruct H as (a0 & _ & _ & D & _). apply static_dims; [apply wf_at|exact D].
  - intros (P & W & H). cbn [s_cls s_pred s_shape] in *. destruct ps as [|y [|]]; try contradiction. destruct H as (Es & Ey & Hq).
    eapply good_node; [reflexivity|reflexivity|intros; exact I|cbn; now rewrite Es|cbn; now rewrite Ey|apply (filled_quad Hq)|reflexivity].
Qed.
End One.
