(** The multigraph of a model. *)
From Verif Require Import Base GraphModel GraphSpec GraphProofs GraphProofs2 NetModel NetSpec.
From Coq Require Import String.
Local Open Scope string_scope.

Lemma existsb_str u l : existsb (String.eqb u) l = true <-> In u l.
Proof. rewrite existsb_exists. split; [intros (x & H & E); apply String.eqb_eq in E; now subst|]. intros H. exists u. split; [exact H|apply String.eqb_refl]. Qed.
Lemma node_in G u : In u (nx_nodes G) -> nx_node G u = G.
Proof. intros H. unfold nx_node. apply existsb_str in H. now rewrite H. Qed.
Lemma node_out G u : ~ In u (nx_nodes G) -> nx_node G u = NX (nx_nodes G ++ [u]) (nx_edges G).
Proof. intros H. unfold nx_node. destruct (existsb (String.eqb u) (nx_nodes G)) eqn:E; [|reflexivity]. apply existsb_str in E. contradiction. Qed.
Lemma edge_in G u v : In u (nx_nodes G) -> In v (nx_nodes G) -> nx_edge G u v = NX (nx_nodes G) (nx_edges G ++ [(u, v)]).
Proof. intros H H'. unfold nx_edge. now rewrite (node_in _ _ H), (node_in _ _ H'). Qed.
Lemma edge_out G u v : In u (nx_nodes G) -> ~ In v (nx_nodes G) -> nx_edge G u v = NX (nx_nodes G ++ [v]) (nx_edges G ++ [(u, v)]).
Proof. intros H H'. unfold nx_edge. now rewrite (node_in _ _ H), (node_out _ _ H'). Qed.
Lemma nodes_fold l : forall G, NoDup (nx_nodes G ++ l) -> fold_left nx_node l G = NX (nx_nodes G ++ l) (nx_edges G).
Proof.
  induction l as [|u l IH]; intros G H; cbn [fold_left]; [rewrite app_nil_r; now destruct G|]. rewrite node_out by (apply NoDup_remove_2 in H; rewrite in_app_iff in H; tauto). rewrite IH by (cbn [nx_nodes]; rewrite <- app_assoc; exact H). cbn [nx_nodes nx_edges]. now rewrite <- app_assoc.
Qed.
Lemma nodes_len l : forall G, (List.length (nx_nodes (fold_left nx_node l G)) <= List.length (nx_nodes G) + List.length l)%nat.
Proof. induction l as [|u l IH]; intros G; cbn [fold_left List.length]; [lia|]. specialize (IH (nx_node G u)). unfold nx_node in *. destruct (existsb _ _); cbn [nx_nodes] in *; rewrite ?app_length in *; cbn [List.length] in *; lia. Qed.
Lemma nodes_short l : forall G, NoDup (nx_nodes G) -> ~ NoDup (nx_nodes G ++ l) -> (List.length (nx_nodes (fold_left nx_node l G)) < List.length (nx_nodes G) + List.length l)%nat.
Proof.
  induction l as [|u l IH]; intros G N H; [rewrite app_nil_r in H; contradiction|]. cbn [fold_left List.length]. destruct (in_dec string_dec u (nx_nodes G)) as [I|I].
  - rewrite (node_in _ _ I). pose proof (nodes_len l G). lia.
  - rewrite (node_out _ _ I). specialize (IH (NX (nx_nodes G ++ [u]) (nx_edges G))). cbn [nx_nodes] in IH. rewrite app_length in IH. cbn [List.length] in IH.
    assert (N' : NoDup (nx_nodes G ++ [u])) by (apply (Permutation_NoDup (Permutation_cons_append _ _)); constructor; assumption). assert (H' : ~ NoDup ((nx_nodes G ++ [u]) ++ l)) by (rewrite <- app_assoc; exact H). specialize (IH N' H'). lia.
Qed.
(** The edges to successors. *)
Definition succs (repr : nat -> string) (g : graph) (n : nat) : list (string * string) := map (fun m => (repr n, repr m)) (oget (gsucc g) n).
Lemma succ_fold repr g n ms : forall G, (forall m, In m ms -> alive g m = true /\ In (repr m) (nx_nodes G)) -> In (repr n) (nx_nodes G) ->
  rfold (nx_successor repr g n) G ms = Ok (NX (nx_nodes G) (nx_edges G ++ map (fun m => (repr n, repr m)) ms)).
Proof.
  induction ms as [|m ms IH]; intros G H Hn; cbn [rfold map]; [rewrite app_nil_r; now destruct G|]. destruct (H m (or_introl eq_refl)) as [A I]. unfold nx_successor at 1. rewrite A, (edge_in _ _ _ Hn I), IH; cbn [nx_nodes nx_edges]; [now rewrite <- app_assoc| |exact Hn]. intros x Hx. apply H. now right.
Qed.
Lemma succs_fold repr g ns : forall G, (forall n, In n ns -> In (repr n) (nx_nodes G) /\ forall m, In m (oget (gsucc g) n) -> alive g m = true /\ In (repr m) (nx_nodes G)) ->
  rfold (fun G n => rfold (nx_successor repr g n) G (oget (gsucc g) n)) G ns = Ok (NX (nx_nodes G) (nx_edges G ++ flat_map (succs repr g) ns)).
Proof.
  induction ns as [|n ns IH]; intros G H; cbn [rfold flat_map]; [rewrite app_nil_r; now destruct G|]. destruct (H n (or_introl eq_refl)) as [I S]. rewrite (succ_fold _ _ _ _ _ S I), IH; cbn [nx_nodes nx_edges]; [now rewrite <- app_assoc|]. intros x Hx. apply H. now right.
Qed.
Lemma cons_fold (repr : nat -> string) cs : forall G, (forall c, In c cs -> In (repr c) (nx_nodes G)) -> In "constraint(s)" (nx_nodes G) ->
  fold_left (fun G c => nx_edge G (repr c) "constraint(s)") cs G = NX (nx_nodes G) (nx_edges G ++ map (fun c => (repr c, "constraint(s)")) cs).
Proof.
  induction cs as [|c cs IH]; intros G H Hc; cbn [fold_left map]; [rewrite app_nil_r; now destruct G|]. rewrite (edge_in _ _ _ (H c (or_introl eq_refl)) Hc), IH; cbn [nx_nodes nx_edges]; [now rewrite <- app_assoc| |exact Hc]. intros x Hx. apply H. now right.
Qed.
Definition special (g : graph) : list string := (match gobj g with Some _ => ["minimize"] | None => [] end) ++ (match gcons g with [] => [] | _ => ["constraint(s)"] end).
Definition all_edges (repr : nat -> string) (g : graph) : list (string * string) :=
  flat_map (succs repr g) (gnodes g) ++ (match gobj g with Some o => [(repr o, "minimize")] | None => [] end) ++ map (fun c => (repr c, "constraint(s)")) (gcons g).
Lemma map_NoDup (repr : nat -> string) l : NoDup l -> (forall n m, In n l -> In m l -> repr n = repr m -> n = m) -> NoDup (map repr l).
Proof.
  induction 1 as [|n l Hn N IH]; intros I; cbn [map]; constructor; [|apply IH; intros a b Ha Hb; apply I; now right]. intros H. apply in_map_iff in H. destruct H as (m & E & Hm). apply I in E; [subst; contradiction|now right|now left].
Qed.
Lemma exported ops g repr : history ops = Ok g -> names repr g -> to_networkx repr g = Ok (NX (map repr (gnodes g) ++ special g) (all_edges repr g)).
Proof.
  intros Hh [Inj Sp]. pose proof (history_WF ops g Hh) as W. assert (L : linked g) by apply W. assert (ND : NoDup (gnodes g)) by apply W. assert (AL : forall n, In n (gnodes g) -> alive g n = true) by (intros; apply W; assumption).
  assert (Ob : forall n, gobj g = Some n -> In n (gnodes g)) by apply W. assert (Co : incl (gcons g) (gnodes g)) by apply W.
  unfold to_networkx. rewrite nodes_fold by (cbn [nx_nodes app]; now apply map_NoDup). cbn [nx_nodes nx_edges app]. rewrite map_length, Nat.eqb_refl. cbn [negb].
  rewrite succs_fold. 2:{ cbn [nx_nodes]. intros n Hn. split; [now apply in_map|]. intros m Hm. destruct L as (_ & L2 & _). pose proof (L2 _ _ Hn Hm) as I. split; [now apply AL|now apply in_map]. }
  cbn [nx_nodes nx_edges app]. rewrite map_length, Nat.eqb_refl. cbn [negb]. f_equal.
  assert (NM : ~ In "minimize" (map repr (gnodes g))) by (intros H; apply in_map_iff in H; destruct H as (n & E & _); destruct (Sp n); congruence).
  assert (NC : ~ In "constraint(s)" (map repr (gnodes g))) by (intros H; apply in_map_iff in H; destruct H as (n & E & _); destruct (Sp n); congruence).
  unfold special, all_edges. destruct (gobj g) as [o|] eqn:Eo.
  - rewrite edge_out; cbn [nx_nodes nx_edges]; [|apply in_map; now apply Ob|exact NM]. destruct (gcons g) as [|c cs] eqn:Ec; [cbn [fold_left map app]; rewrite ?app_nil_r; reflexivity|]. cbn [fold_left].
    rewrite edge_out; cbn [nx_nodes nx_edges]; [|apply in_or_app; left; apply in_map; apply Co; now left|intros H; apply in_app_or in H; destruct H as [H|[H|[]]]; [contradiction|discriminate H]].
    rewrite cons_fold; cbn [nx_nodes nx_edges]; [|intros x Hx; apply in_or_app; left; apply in_or_app; left; apply in_map; apply Co; now right|apply in_or_app; right; now left]. cbn [map app]. rewrite <- !app_assoc. reflexivity.
  - destruct (gcons g) as [|c cs] eqn:Ec; [cbn [fold_left map app]; rewrite ?app_nil_r; reflexivity|]. cbn [fold_left].
    rewrite edge_out; cbn [nx_nodes nx_edges]; [|apply in_map; apply Co; now left|exact NC].
    rewrite cons_fold; cbn [nx_nodes nx_edges]; [|intros x Hx; apply in_or_app; left; apply in_map; apply Co; now right|apply in_or_app; right; now left]. cbn [map app]. rewrite <- !app_assoc. reflexivity.
Qed.
Lemma times_app u v a b : times u v (a ++ b) = (times u v a + times u v b)%nat.
Proof. apply count_occ_app. Qed.
Lemma times_none u v l : (forall e, In e l -> e <> (u, v)) -> times u v l = 0%nat.
Proof. intros H. apply count_occ_not_In. intros I. now apply (H _ I). Qed.
(** Pairs with a fixed first or second component. *)
Lemma times_map (f : nat -> string * string) x u v l : f x = (u, v) -> (forall y, In y l -> f y = (u, v) -> y = x) -> times u v (map f l) = occ x l.
Proof.
  intros E. induction l as [|y l IH]; intros H; [reflexivity|]. cbn [map]. unfold times, occ in *. cbn [count_occ]. destruct (Nat.eq_dec y x) as [->|D].
  - rewrite E. destruct (same_edge (u, v) (u, v)) as [_|F]; [|contradiction]. f_equal. apply IH. intros z Hz. apply H. now right.
  - destruct (same_edge (f y) (u, v)) as [F|_]; [elim D; apply H; [now left|exact F]|]. apply IH. intros z Hz. apply H. now right.
Qed.
Lemma times_succs repr g p n : (forall a b, In a (gnodes g) -> In b (gnodes g) -> repr a = repr b -> a = b) -> linked g -> NoDup (gnodes g) -> In p (gnodes g) -> In n (gnodes g) ->
  times (repr p) (repr n) (flat_map (succs repr g) (gnodes g)) = occ n (oget (gsucc g) p).
Proof.
  intros Inj L ND Hp Hn. assert (G : forall l, incl l (gnodes g) -> NoDup l -> times (repr p) (repr n) (flat_map (succs repr g) l) = if in_dec Nat.eq_dec p l then occ n (oget (gsucc g) p) else 0%nat).
  { induction l as [|q l IH]; intros I N; [reflexivity|]. cbn [flat_map]. rewrite times_app. inversion N as [|? ? Nq Nl]; subst. rewrite IH by (assumption || (intros x Hx; apply I; now right)). assert (Hq : In q (gnodes g)) by (apply I; now left). destruct (Nat.eq_dec q p) as [->|D].
    - assert (E : times (repr p) (repr n) (succs repr g p) = occ n (oget (gsucc g) p)).
      { apply times_map; [reflexivity|]. intros y Hy F. injection F as F. apply Inj; [|exact Hn|exact F]. destruct L as (_ & L2 & _). exact (L2 _ _ Hp Hy). }
      rewrite E. destruct (in_dec Nat.eq_dec p l); [contradiction|]. destruct (in_dec Nat.eq_dec p (p :: l)) as [_|F]; [lia|elim F; now left].
    - assert (E : times (repr p) (repr n) (succs repr g q) = 0%nat).
      { apply times_none. intros e He F. subst e. apply in_map_iff in He. destruct He as (y & F & _). injection F as F _. apply D. now apply Inj. }
      rewrite E. destruct (in_dec Nat.eq_dec p l) as [A|A], (in_dec Nat.eq_dec p (q :: l)) as [B|B]; try reflexivity; [elim B; now right|]. destruct B as [B|B]; [contradiction|contradiction]. }
  rewrite G by (assumption || intros x Hx; exact Hx). destruct (in_dec Nat.eq_dec p (gnodes g)); [reflexivity|contradiction].
Qed.
Lemma in_succs repr g e : linked g -> In e (flat_map (succs repr g) (gnodes g)) -> exists p n, In p (gnodes g) /\ In n (gnodes g) /\ e = (repr p, repr n).
Proof.
  intros L H. apply in_flat_map in H. destruct H as (p & Hp & H). apply in_map_iff in H. destruct H as (n & <- & Hn). exists p, n. destruct L as (_ & L2 & _). split; [exact Hp|]. split; [exact (L2 _ _ Hp Hn)|reflexivity].
Qed.
(** Counting from both ends. *)
Lemma num_edges_sum g : num_edges g = list_sum (map (fun n => List.length (oget (gsucc g) n)) (gnodes g)).
Proof.
  unfold num_edges. enough (forall l k, fold_left (fun k n => k + List.length (oget (gsucc g) n))%nat l k = (k + list_sum (map (fun n => List.length (oget (gsucc g) n)) l))%nat) as H by (rewrite H; reflexivity).
  induction l as [|n l IH]; intros k; cbn [fold_left map list_sum fold_right]; [lia|]. rewrite IH. unfold list_sum. lia.
Qed.
Lemma len_occ ns l : NoDup ns -> incl l ns -> List.length l = list_sum (map (fun n => occ n l) ns).
Proof.
  intros N. induction l as [|x l IH]; intros I.
  - cbn [List.length]. clear. induction ns; [reflexivity|]. cbn. exact IHns.
  - cbn [List.length]. rewrite IH by (intros y Hy; apply I; now right). assert (Hx : In x ns) by (apply I; now left). clear IH I. induction N as [|n ns Hn N IH]; [destruct Hx|].
    cbn [map list_sum fold_right]. fold (list_sum (map (fun n0 => occ n0 l) ns)). fold (list_sum (map (fun n0 => occ n0 (x :: l)) ns)). unfold occ at 3. cbn [count_occ]. fold (occ n l). destruct (Nat.eq_dec x n) as [->|D].
    + assert (E : map (fun n0 => occ n0 (n :: l)) ns = map (fun n0 => occ n0 l) ns) by (apply map_ext_in; intros a Ha; unfold occ; cbn [count_occ]; destruct (Nat.eq_dec n a); [subst; contradiction|reflexivity]). rewrite E. lia.
    + destruct Hx as [->|Hx]; [contradiction|]. specialize (IH Hx). lia.
Qed.
Lemma sum_swap (f : nat -> nat -> nat) a b : list_sum (map (fun x => list_sum (map (f x) b)) a) = list_sum (map (fun y => list_sum (map (fun x => f x y) a)) b).
Proof.
  induction a as [|x a IH]; cbn [map list_sum fold_right].
  - induction b; [reflexivity|]. cbn. exact IHb.
  - fold (list_sum (map (fun x0 => list_sum (map (f x0) b)) a)). rewrite IH. clear IH. induction b as [|y b IH]; [reflexivity|]. cbn [map list_sum fold_right] in *. unfold list_sum in *. lia.
Qed.
Lemma edges_operands ops g : history ops = Ok g -> num_edges g = operands g.
Proof.
  intros Hh. pose proof (history_WF ops g Hh) as W. destruct (wf_link _ W) as (L1 & L2 & L3). pose proof (wf_nd _ W) as ND. rewrite num_edges_sum. unfold operands.
  rewrite (map_ext_in _ (fun p => list_sum (map (fun n => occ n (oget (gsucc g) p)) (gnodes g)))) by (intros p Hp; apply len_occ; [exact ND|intros n Hn; exact (L2 _ _ Hp Hn)]).
  rewrite sum_swap. f_equal. apply map_ext_in. intros n Hn. rewrite (len_occ (gnodes g) (oget (gpred g) n)) by (assumption || (intros p Hp; exact (L3 _ _ Hn Hp))). f_equal. apply map_ext_in. intros p Hp. now apply L1.
Qed.
Lemma len_flat {A B} (f : A -> list B) l : List.length (flat_map f l) = list_sum (map (fun x => List.length (f x)) l).
Proof. induction l; [reflexivity|]. cbn [flat_map map list_sum fold_right]. rewrite app_length. unfold list_sum in *. lia. Qed.
Lemma export_ok ops g repr : history ops = Ok g -> names repr g -> exists G, to_networkx repr g = Ok G /\
  nx_nodes G = (map repr (gnodes g) ++ (match gobj g with Some _ => ["minimize"] | None => [] end) ++ (match gcons g with [] => [] | _ => ["constraint(s)"] end))%list /\
  (forall p n, In p (gnodes g) -> In n (gnodes g) -> times (repr p) (repr n) (nx_edges G) = occ p (oget (gpred g) n)) /\
  (forall p, In p (gnodes g) -> times (repr p) "minimize" (nx_edges G) = (match gobj g with Some o => if o =? p then 1 else 0 | None => 0 end)%nat /\ times (repr p) "constraint(s)" (nx_edges G) = occ p (gcons g)) /\
  (forall u v, In (u, v) (nx_edges G) -> exists p, In p (gnodes g) /\ u = repr p /\ (v = "minimize" \/ v = "constraint(s)" \/ exists n, In n (gnodes g) /\ v = repr n)) /\
  List.length (nx_edges G) = (num_edges g + (match gobj g with Some _ => 1 | None => 0 end) + List.length (gcons g))%nat.
Proof.
  intros Hh Nm. eexists. split; [eapply exported; eassumption|]. destruct Nm as [Inj Sp]. pose proof (history_WF ops g Hh) as W. pose proof (wf_link _ W) as L. pose proof (wf_nd _ W) as ND. cbn [nx_nodes nx_edges].
  assert (Ob := wf_obj _ W). assert (Co := wf_cons _ W). split; [reflexivity|]. unfold all_edges. split; [|split; [|split]].
  - intros p n Hp Hn. rewrite !times_app, times_succs by assumption. destruct L as (L1 & L2 & L3). rewrite L1 by assumption. rewrite times_none, times_none; [lia| |].
    + intros e He F. subst e. apply in_map_iff in He. destruct He as (c & F & _). injection F as _ F. destruct (Sp n); congruence.
    + intros e He F. subst e. destruct (gobj g); [destruct He as [He|[]]; injection He as _ F; destruct (Sp n); congruence|destruct He].
  - intros p Hp. rewrite !times_app. assert (Z1 : forall s, s = "minimize" \/ s = "constraint(s)" -> times (repr p) s (flat_map (succs repr g) (gnodes g)) = 0%nat).
    { intros s Hs. apply times_none. intros e He F. subst e. apply (in_succs repr g _ L) in He. destruct He as (a & b & _ & _ & F). injection F as _ F. destruct (Sp b), Hs; subst s; congruence. }
    rewrite !Z1 by tauto. split.
    + rewrite (times_none (repr p) "minimize" (map _ _)) by (intros e He F; subst e; apply in_map_iff in He; destruct He as (c & F & _); injection F as _ F; discriminate F).
      destruct (gobj g) as [o|] eqn:Eo; [|reflexivity]. unfold times. cbn [count_occ]. destruct (Nat.eqb_spec o p) as [->|D].
      * destruct (same_edge (repr p, "minimize") (repr p, "minimize")) as [_|F]; [reflexivity|contradiction].
      * destruct (same_edge (repr o, "minimize") (repr p, "minimize")) as [F|_]; [|reflexivity]. injection F as F. elim D. apply Inj; [now apply Ob|exact Hp|exact F].
    + rewrite (times_none (repr p) "constraint(s)" (match gobj g with Some _ => _ | None => _ end)) by (intros e He F; subst e; destruct (gobj g); [destruct He as [He|[]]; injection He as _ F; discriminate F|destruct He]).
      rewrite (times_map (fun c => (repr c, "constraint(s)")) p); [lia|reflexivity|]. intros y Hy F. injection F as F. apply Inj; [now apply Co|exact Hp|exact F].
  - intros u v H. apply in_app_or in H. destruct H as [H|H]; [|apply in_app_or in H; destruct H as [H|H]].
    + apply (in_succs repr g _ L) in H. destruct H as (p & n & Hp & Hn & E). injection E as -> ->. exists p. split; [exact Hp|]. split; [reflexivity|]. right. right. now exists n.
    + destruct (gobj g) as [o|] eqn:Eo; [|destruct H]. destruct H as [H|[]]. injection H as <- <-. exists o. split; [now apply Ob|]. split; [reflexivity|now left].
    + apply in_map_iff in H. destruct H as (c & E & Hc). injection E as <- <-. exists c. split; [now apply Co|]. split; [reflexivity|right; now left].
  - rewrite !app_length, map_length, len_flat, num_edges_sum. unfold succs. rewrite (map_ext _ (fun n => List.length (oget (gsucc g) n))) by (intros; apply map_length). destruct (gobj g); cbn [List.length]; lia.
Qed.
Lemma export_names ops g repr n m : history ops = Ok g -> In n (gnodes g) -> In m (gnodes g) -> n <> m -> repr n = repr m -> to_networkx repr g = Throw.
Proof.
  intros Hh Hn Hm D E. unfold to_networkx. assert (H : ~ NoDup (map repr (gnodes g))).
  { intros N. apply D. clear - N Hn Hm E. induction (gnodes g) as [|a l IH]; [destruct Hn|]. cbn [map] in N. inversion N as [|? ? Na Nl]; subst. destruct Hn as [->|Hn], Hm as [->|Hm]; [reflexivity| | |now apply IH].
    - elim Na. rewrite E. now apply in_map.
    - elim Na. rewrite <- E. now apply in_map. }
  pose proof (nodes_short (map repr (gnodes g)) (NX [] []) (NoDup_nil _) H) as S. cbn [nx_nodes List.length] in S. rewrite map_length in S. destruct (Nat.eqb_spec (List.length (nx_nodes (fold_left nx_node (map repr (gnodes g)) (NX [] [])))) (List.length (gnodes g))); [lia|reflexivity].
Qed.
