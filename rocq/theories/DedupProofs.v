From Coq Require Import Sorted.
From Verif Require Import Base StateDataModel StateDataSpec StateDataProofs DedupModel.
Set Implicit Arguments.

Section Proofs.
Context {V : Type}.
Variable veqb : V -> V -> bool.
Hypothesis veqb_spec : forall x y, reflect (x = y) (veqb x y).

Notation at_idx i := (filter (fun u : update V => uidx u =? i)).

(** The updates of one index lead from [a] to [b], each old value being the previous value. *)
Fixpoint chain (a : option V) (us : list (update V)) (b : option V) : Prop :=
  match us with
  | [] => a = b
  | u :: t => uold u = a /\ chain (uval u) t b
  end.

Lemma identity_true u : identity veqb u = true -> uold u = uval u /\ unull u = false.
Proof.
  unfold identity, unull, placed, removed.
  destruct (uold u) as [o|], (uval u) as [v|]; try discriminate.
  destruct (veqb_spec o v) as [->|]; [auto|discriminate].
Qed.

(** *** sorting *)
Lemma insert_at_idx u l i :
  at_idx i (insert_upd u l) = at_idx i (u :: l).
Proof.
  induction l as [|h t IH]; auto. cbn [insert_upd].
  destruct (Nat.leb_spec (uidx u) (uidx h)); auto.
  cbn [filter] in *. rewrite IH.
  destruct (Nat.eqb_spec (uidx u) i), (Nat.eqb_spec (uidx h) i); auto; lia.
Qed.

Lemma stable_sort_at_idx l i : at_idx i (stable_sort l) = at_idx i l.
Proof.
  induction l as [|h t IH]; auto. cbn [stable_sort fold_right].
  rewrite insert_at_idx. cbn [filter]. unfold stable_sort in IH. rewrite IH. reflexivity.
Qed.

Definition sorted_from (n : nat) (l : list (update V)) : Prop :=
  Sorted le (map (@uidx V) l) /\ Forall (fun u => n <= uidx u) l.

Lemma insert_In (u : update V) l x : In x (insert_upd u l) <-> x = u \/ In x l.
Proof.
  induction l as [|h t IH]; cbn [insert_upd].
  - cbn; intuition.
  - destruct (_ <=? _); cbn; [intuition|]. rewrite IH. intuition.
Qed.

Lemma insert_sorted u l :
  StronglySorted le (map (@uidx V) l) -> StronglySorted le (map (@uidx V) (insert_upd u l)).
Proof.
  induction l as [|h t IH]; cbn [insert_upd map]; intros H.
  - repeat constructor.
  - inversion_clear H as [|? ? Hs Hf]. destruct (Nat.leb_spec (uidx u) (uidx h)).
    + cbn [map]. constructor; [constructor; auto|]. constructor; auto.
      eapply Forall_impl; [|exact Hf]. cbn; intros; lia.
    + cbn [map]. constructor; auto. rewrite Forall_forall in *. intros x Hx.
      apply in_map_iff in Hx. destruct Hx as [w [<- Hw]]. apply insert_In in Hw.
      destruct Hw as [->|Hw]; [lia|]. apply Hf. now apply in_map.
Qed.

Lemma stable_sort_sorted l : StronglySorted le (map (@uidx V) (stable_sort l)).
Proof.
  induction l as [|h t IH]; cbn [stable_sort fold_right]; [constructor|].
  apply insert_sorted. exact IH.
Qed.

Lemma stable_sort_In (l : list (update V)) x : In x (stable_sort l) <-> In x l.
Proof.
  induction l as [|h t IH]; cbn [stable_sort fold_right]; [tauto|].
  rewrite insert_In. unfold stable_sort in IH. rewrite IH. cbn. intuition.
Qed.

Lemma at_idx_above i l : Forall (fun u : update V => i < uidx u) l -> at_idx i l = [].
Proof.
  induction l as [|h t IH]; auto. intros H. inversion_clear H. cbn [filter].
  rewrite (proj2 (Nat.eqb_neq _ _)) by lia. auto.
Qed.

(** *** what the result means *)
Section Loop.
Variables a b : nat -> option V.
Hypothesis closed : forall i j, a i = None -> b i = None -> i <= j -> a j = None /\ b j = None.

Definition result_ok (r : list (update V)) : Prop :=
  StronglySorted gt (map (@uidx V) r) /\
  (forall u, In u r -> uold u = a (uidx u) /\ uval u = b (uidx u) /\ unull u = false) /\
  (forall i, a i <> b i -> In i (map (@uidx V) r)).

Definition loop_inv (acc rest : list (update V)) : Prop :=
  StronglySorted le (map (@uidx V) rest) /\
  match acc with
  | [] => True
  | h :: _ => Forall (fun u => uidx h <= uidx u) rest
  end /\
  StronglySorted gt (map (@uidx V) acc) /\
  (forall u, In u acc -> uold u = a (uidx u) /\ chain (uval u) (at_idx (uidx u) rest) (b (uidx u))) /\
  (forall u, In u (tl acc) -> unull u = false) /\
  (forall i, ~ In i (map (@uidx V) acc) -> chain (a i) (at_idx i rest) (b i)).

Lemma sorted_tail_above (h : update V) t x :
  StronglySorted gt (map (@uidx V) (h :: t)) -> In x t -> uidx x < uidx h.
Proof.
  cbn. intros H Hx. inversion_clear H as [|? ? _ Hf]. rewrite Forall_forall in Hf.
  apply Hf. now apply in_map.
Qed.

Lemma unull_none (u : update V) : unull u = true <-> uold u = None /\ uval u = None.
Proof.
  unfold unull, placed, removed. destruct (uold u), (uval u); cbn; intuition congruence.
Qed.

Lemma in_map_uidx (u : update V) l : In u l -> In (uidx u) (map (@uidx V) l).
Proof. apply in_map. Qed.

Lemma compact_ok rest : forall acc r,
  acc <> [] -> loop_inv acc rest -> compact veqb acc rest = Some r -> result_ok r.
Proof.
  induction rest as [|u rest IH]; intros acc r Hne HI H; destruct acc as [|h t]; try congruence.
  - cbn in H. destruct HI as (_ & _ & Hs & Hin & Hnn & Hout).
    assert (Hspec : forall i, ~ In i (map (@uidx V) (h :: t)) -> a i = b i)
      by (intros i Hi; exact (Hout i Hi)).
    destruct (unull h) eqn:En; injection H as <-.
    + apply unull_none in En. destruct En as [En1 En2].
      destruct (Hin h (or_introl eq_refl)) as [Ho Hc]. cbn in Hc.
      inversion_clear Hs as [|? ? Hs' Hf].
      split; [exact Hs'|]. split.
      * intros x Hx. destruct (Hin x (or_intror Hx)) as [Hxo Hxc]. cbn in Hxc. auto.
      * intros i Hi. destruct (Nat.eq_dec (uidx h) i) as [Ej|Hd].
        { exfalso. apply Hi. subst i. congruence. }
        destruct (in_dec Nat.eq_dec i (map (@uidx V) t)); auto.
        exfalso. apply Hi, Hspec. cbn. intuition.
    + split; [exact Hs|]. split.
      * intros x Hx. destruct (Hin x Hx) as [Hxo Hxc]. cbn in Hxc. split; auto. split; auto.
        destruct Hx as [<-|Hx]; auto.
      * intros i Hi. destruct (in_dec Nat.eq_dec i (map (@uidx V) (h :: t))); auto.
        exfalso. apply Hi, Hspec. auto.
  - cbn [compact] in H. destruct HI as (Hso & Hle & Hs & Hin & Hnn & Hout).
    cbn [map] in Hso. inversion_clear Hso as [|? ? Hso' Hfa].
    inversion_clear Hle as [|? ? Hu Hle'].
    destruct (Nat.eqb_spec (uidx u) (uidx h)) as [Eu|Eu].
    + apply IH in H; [exact H|discriminate|].
      split; [exact Hso'|]. split; [exact Hle'|]. split; [exact Hs|]. split; [|split].
      * intros x [<-|Hx].
        { cbn [uidx uold uval]. destruct (Hin h (or_introl eq_refl)) as [Ho Hc].
          split; auto. cbn [filter] in Hc. rewrite (proj2 (Nat.eqb_eq _ _) Eu) in Hc.
          destruct Hc as [_ Hc]. exact Hc. }
        { destruct (Hin x (or_intror Hx)) as [Ho Hc]. split; auto.
          assert (uidx x < uidx h) by (eapply sorted_tail_above; eauto).
          cbn [filter] in Hc. rewrite (proj2 (Nat.eqb_neq _ _)) in Hc by lia. exact Hc. }
      * exact Hnn.
      * intros i Hi. cbn [map uidx] in Hi. specialize (Hout i Hi). cbn [filter] in Hout.
        rewrite (proj2 (Nat.eqb_neq _ _)) in Hout by (cbn in Hi; intuition lia). exact Hout.
    + assert (Hlt : uidx h < uidx u) by lia.
      assert (Hall : Forall (fun w => uidx u <= uidx w) rest).
      { apply Forall_forall. intros w Hw. rewrite Forall_forall in Hfa.
        apply Hfa. now apply in_map. }
      assert (Hbelow : forall i, i <= uidx h -> at_idx i (u :: rest) = []).
      { intros i Hi. apply at_idx_above. constructor; [lia|].
        eapply Forall_impl; [|exact Hall]. cbn; intros; lia. }
      destruct (unull h) eqn:En.
      * destruct t as [|h' t']; [discriminate|].
        assert (En' : unull h' = false) by (apply Hnn; cbn; auto).
        rewrite En' in H. injection H as <-.
        apply unull_none in En. destruct En as [En1 En2].
        destruct (Hin h (or_introl eq_refl)) as [Ho Hc].
        rewrite Hbelow in Hc by lia. cbn in Hc.
        inversion_clear Hs as [|? ? Hs' Hf].
        split; [exact Hs'|]. split.
        { intros x Hx. destruct (Hin x (or_intror Hx)) as [Hxo Hxc].
          assert (uidx x < uidx h).
          { rewrite Forall_forall in Hf. apply Hf. exact (in_map (@uidx V) _ _ Hx). }
          rewrite Hbelow in Hxc by lia. cbn in Hxc. auto. }
        { intros i Hi. destruct (le_lt_dec (uidx h) i) as [Hge|Hl].
          - exfalso. apply Hi.
            destruct (closed (i := uidx h) (j := i)) as [-> ->]; auto; congruence.
          - destruct (in_dec Nat.eq_dec i (map (@uidx V) (h' :: t'))); auto.
            exfalso. apply Hi.
            assert (Hc' := Hout i). rewrite Hbelow in Hc' by lia. apply Hc'.
            change (map (@uidx V) (h :: h' :: t')) with (uidx h :: map (@uidx V) (h' :: t')).
            intros [?|?]; [lia|auto]. }
      * destruct (identity veqb u) eqn:Ei.
        { apply IH in H; [exact H|discriminate|].
          apply identity_true in Ei. destruct Ei as [Ei _].
          split; [exact Hso'|]. split; [eapply Forall_impl; [|exact Hall]; cbn; intros; lia|].
          split; [exact Hs|]. split; [|split]; auto.
          - intros x Hx. destruct (Hin x Hx) as [Hxo Hxc]. split; auto.
            assert (uidx x <= uidx h).
            { destruct Hx as [<-|Hx]; auto.
              assert (uidx x < uidx h) by (eapply sorted_tail_above; eauto). lia. }
            cbn [filter] in Hxc. rewrite (proj2 (Nat.eqb_neq _ _)) in Hxc by lia. exact Hxc.
          - intros i Hi. specialize (Hout i Hi). cbn [filter] in Hout.
            destruct (Nat.eqb_spec (uidx u) i) as [Ej|Ej]; [|exact Hout].
            destruct Hout as [Hu1 Hu2]. rewrite <- Hu1, Ei. exact Hu2. }
        { apply IH in H; [exact H|discriminate|].
          split; [exact Hso'|]. split; [exact Hall|]. split; [|split; [|split]].
          - cbn [map]. constructor; [exact Hs|]. cbn [map]. constructor; [lia|].
            apply Forall_forall. intros j Hj. apply in_map_iff in Hj.
            destruct Hj as [x [<- Hx]].
            assert (uidx x < uidx h) by (eapply sorted_tail_above; eauto). lia.
          - intros x [<-|Hx].
            + assert (Hn : ~ In (uidx u) (map (@uidx V) (h :: t))).
              { intros Hi. apply in_map_iff in Hi. destruct Hi as [x [Ex Hx]].
                destruct Hx as [<-|Hx]; [lia|].
                assert (uidx x < uidx h) by (eapply sorted_tail_above; eauto). lia. }
              specialize (Hout _ Hn). cbn [filter] in Hout. rewrite Nat.eqb_refl in Hout.
              destruct Hout as [Hu1 Hu2]. split; auto.
            + destruct (Hin x Hx) as [Hxo Hxc]. split; auto.
              assert (uidx x <= uidx h).
              { destruct Hx as [<-|Hx]; auto.
                assert (uidx x < uidx h) by (eapply sorted_tail_above; eauto). lia. }
              cbn [filter] in Hxc. rewrite (proj2 (Nat.eqb_neq _ _)) in Hxc by lia. exact Hxc.
          - cbn [tl]. intros x [<-|Hx]; auto.
          - intros i Hi. cbn [map] in Hi.
            assert (Hi' : ~ In i (map (@uidx V) (h :: t))) by (cbn in *; tauto).
            specialize (Hout i Hi'). cbn [filter] in Hout.
            rewrite (proj2 (Nat.eqb_neq _ _)) in Hout by (cbn in Hi; tauto). exact Hout. }
Qed.

(** When the loop hits [diff[-1]], every remaining and accumulated index is net "nothing". *)
Lemma compact_none rest : forall acc,
  acc <> [] -> loop_inv acc rest -> compact veqb acc rest = None ->
  match acc with
  | h :: [] => a (uidx h) = None /\ b (uidx h) = None
  | _ => False
  end.
Proof.
  induction rest as [|u rest IH]; intros acc Hne HI H; destruct acc as [|h t]; try congruence.
  - cbn in H. discriminate.
  - cbn [compact] in H. destruct HI as (Hso & Hle & Hs & Hin & Hnn & Hout).
    cbn [map] in Hso. inversion_clear Hso as [|? ? Hso' Hfa].
    inversion_clear Hle as [|? ? Hu Hle'].
    assert (Hall : Forall (fun w => uidx u <= uidx w) rest).
    { apply Forall_forall. intros w Hw. rewrite Forall_forall in Hfa.
      apply Hfa. now apply in_map. }
    destruct (Nat.eqb_spec (uidx u) (uidx h)) as [Eu|Eu].
    + apply IH in H.
      * exact H.
      * discriminate.
      * split; [exact Hso'|]. split; [exact Hle'|]. split; [exact Hs|]. split; [|split].
        -- intros x [<-|Hx].
           { cbn [uidx uold uval]. destruct (Hin h (or_introl eq_refl)) as [Ho Hc].
             split; auto. cbn [filter] in Hc. rewrite (proj2 (Nat.eqb_eq _ _) Eu) in Hc.
             destruct Hc as [_ Hc]. exact Hc. }
           { destruct (Hin x (or_intror Hx)) as [Ho Hc]. split; auto.
             assert (uidx x < uidx h) by (eapply sorted_tail_above; eauto).
             cbn [filter] in Hc. rewrite (proj2 (Nat.eqb_neq _ _)) in Hc by lia. exact Hc. }
        -- exact Hnn.
        -- intros i Hi. cbn [map uidx] in Hi. specialize (Hout i Hi). cbn [filter] in Hout.
           rewrite (proj2 (Nat.eqb_neq _ _)) in Hout by (cbn in Hi; intuition lia). exact Hout.
    + assert (Hlt : uidx h < uidx u) by lia.
      assert (Hbelow : forall i, i <= uidx h -> at_idx i (u :: rest) = []).
      { intros i Hi. apply at_idx_above. constructor; [lia|].
        eapply Forall_impl; [|exact Hall]. cbn; intros; lia. }
      destruct (unull h) eqn:En.
      * destruct t as [|h' t']; [|discriminate].
        apply unull_none in En. destruct En as [En1 En2].
        destruct (Hin h (or_introl eq_refl)) as [Ho Hc].
        rewrite Hbelow in Hc by lia. cbn in Hc. split; congruence.
      * destruct (identity veqb u) eqn:Ei.
        { apply IH in H; [exact H|discriminate|].
          apply identity_true in Ei. destruct Ei as [Ei _].
          split; [exact Hso'|]. split; [eapply Forall_impl; [|exact Hall]; cbn; intros; lia|].
          split; [exact Hs|]. split; [|split]; auto.
          - intros x Hx. destruct (Hin x Hx) as [Hxo Hxc]. split; auto.
            assert (uidx x <= uidx h).
            { destruct Hx as [<-|Hx]; auto.
              assert (uidx x < uidx h) by (eapply sorted_tail_above; eauto). lia. }
            cbn [filter] in Hxc. rewrite (proj2 (Nat.eqb_neq _ _)) in Hxc by lia. exact Hxc.
          - intros i Hi. specialize (Hout i Hi). cbn [filter] in Hout.
            destruct (Nat.eqb_spec (uidx u) i) as [Ej|Ej]; [|exact Hout].
            destruct Hout as [Hu1 Hu2]. rewrite <- Hu1, Ei. exact Hu2. }
        { apply IH in H; [contradiction|discriminate|].
          split; [exact Hso'|]. split; [exact Hall|]. split; [|split; [|split]].
          - cbn [map]. constructor; [exact Hs|]. cbn [map]. constructor; [lia|].
            apply Forall_forall. intros j Hj. apply in_map_iff in Hj.
            destruct Hj as [x [<- Hx]].
            assert (uidx x < uidx h) by (eapply sorted_tail_above; eauto). lia.
          - intros x [<-|Hx].
            + assert (Hn : ~ In (uidx u) (map (@uidx V) (h :: t))).
              { intros Hi. apply in_map_iff in Hi. destruct Hi as [x [Ex Hx]].
                destruct Hx as [<-|Hx]; [lia|].
                assert (uidx x < uidx h) by (eapply sorted_tail_above; eauto). lia. }
              specialize (Hout _ Hn). cbn [filter] in Hout. rewrite Nat.eqb_refl in Hout.
              destruct Hout as [Hu1 Hu2]. split; auto.
            + destruct (Hin x Hx) as [Hxo Hxc]. split; auto.
              assert (uidx x <= uidx h).
              { destruct Hx as [<-|Hx]; auto.
                assert (uidx x < uidx h) by (eapply sorted_tail_above; eauto). lia. }
              cbn [filter] in Hxc. rewrite (proj2 (Nat.eqb_neq _ _)) in Hxc by lia. exact Hxc.
          - cbn [tl]. intros x [<-|Hx]; auto.
          - intros i Hi. cbn [map] in Hi.
            assert (Hi' : ~ In i (map (@uidx V) (h :: t))) by (cbn in *; tauto).
            specialize (Hout i Hi'). cbn [filter] in Hout.
            rewrite (proj2 (Nat.eqb_neq _ _)) in Hout by (cbn in Hi; tauto). exact Hout. }
Qed.

Lemma drop_identities_split l : exists ids,
  l = ids ++ drop_identities veqb l /\ Forall (fun u => identity veqb u = true) ids /\
  match drop_identities veqb l with [] => True | u :: _ => identity veqb u = false end.
Proof.
  induction l as [|u t [ids (He & Hf & Hd)]].
  - exists []. cbn. auto.
  - cbn [drop_identities]. destruct (identity veqb u) eqn:E.
    + exists (u :: ids). cbn. split; [congruence|]. auto.
    + exists []. cbn. auto.
Qed.

Lemma chain_drop_identities ids l i x y :
  Forall (fun u => identity veqb u = true) ids ->
  chain x (at_idx i (ids ++ l)) y -> chain x (at_idx i l) y.
Proof.
  induction ids as [|u t IH]; cbn [app]; auto. intros H. inversion_clear H as [|? ? Hu Ht].
  cbn [filter]. destruct (_ =? _); auto. cbn [chain]. intros [Hc1 Hc2].
  apply identity_true in Hu. destruct Hu as [Hu _]. apply IH; auto. congruence.
Qed.

Lemma StronglySorted_app_r {A} (R : A -> A -> Prop) l1 l2 :
  StronglySorted R (l1 ++ l2) -> StronglySorted R l2.
Proof. induction l1; cbn; auto. intros H; inversion_clear H; auto. Qed.

Lemma initial_inv us h r :
  (forall i, chain (a i) (at_idx i us) (b i)) ->
  drop_identities veqb (stable_sort us) = h :: r -> loop_inv [h] r.
Proof.
  intros Hch E. destruct (drop_identities_split (stable_sort us)) as [ids (He & Hf & Hd)].
  rewrite E in *. pose proof (stable_sort_sorted us) as Hso. rewrite He, map_app in Hso.
  apply StronglySorted_app_r in Hso. cbn [map] in Hso.
  inversion_clear Hso as [|? ? Hso' Hfa].
  assert (Hc : forall i, chain (a i) (at_idx i (h :: r)) (b i)).
  { intros i. eapply chain_drop_identities; [exact Hf|]. rewrite <- He.
    rewrite stable_sort_at_idx. auto. }
  split; [exact Hso'|]. split.
  { apply Forall_forall. intros w Hw. rewrite Forall_forall in Hfa. apply Hfa. now apply in_map. }
  split; [cbn; repeat constructor|]. split; [|split].
  - intros x [<-|[]]. specialize (Hc (uidx h)). cbn [filter] in Hc. rewrite Nat.eqb_refl in Hc.
    destruct Hc; auto.
  - cbn. tauto.
  - intros i Hi. specialize (Hc i). cbn [filter] in Hc.
    rewrite (proj2 (Nat.eqb_neq _ _)) in Hc by (cbn in Hi; tauto). exact Hc.
Qed.

Lemma StronglySorted_snoc {A} (R : A -> A -> Prop) l x :
  StronglySorted R l -> Forall (fun y => R y x) l -> StronglySorted R (l ++ [x]).
Proof.
  induction l as [|h t IH]; cbn; intros Hs Hf.
  - repeat constructor.
  - inversion_clear Hs. inversion_clear Hf. constructor; auto.
    apply Forall_app. auto.
Qed.

Lemma StronglySorted_rev l : StronglySorted gt l -> StronglySorted lt (rev l).
Proof.
  induction l as [|h t IH]; cbn; intros H; [constructor|].
  inversion_clear H as [|? ? Hs Hf]. apply StronglySorted_snoc; auto.
  apply Forall_rev. eapply Forall_impl; [|exact Hf]. cbn; intros; lia.
Qed.

Lemma dedup_ok us r :
  (forall i, chain (a i) (at_idx i us) (b i)) ->
  deduplicate_diff veqb us = Some r ->
  StronglySorted lt (map (@uidx V) r) /\
  (forall u, In u r -> uold u = a (uidx u) /\ uval u = b (uidx u) /\ unull u = false) /\
  (forall i, a i <> b i -> In i (map (@uidx V) r)).
Proof.
  intros Hch H. unfold deduplicate_diff in H.
  destruct (drop_identities veqb (stable_sort us)) as [|h t] eqn:E.
  - injection H as <-. cbn. split; [constructor|]. split; [tauto|].
    intros i Hi. exfalso. apply Hi. specialize (Hch i). rewrite <- stable_sort_at_idx in Hch.
    destruct (drop_identities_split (stable_sort us)) as [ids (He & Hf & _)].
    rewrite He, E in Hch. apply chain_drop_identities in Hch; auto.
  - destruct (compact veqb [h] t) as [acc|] eqn:Ec; [|discriminate].
    cbn in H. injection H as <-.
    destruct (compact_ok (acc := [h]) (rest := t) (r := acc)) as (Hs & Hin & Hcov); auto.
    { discriminate. } { eapply initial_inv; eauto. }
    split; [|split].
    + rewrite map_rev. now apply StronglySorted_rev.
    + intros u Hu. apply Hin. now apply in_rev.
    + intros i Hi. rewrite map_rev. rewrite <- in_rev. auto.
Qed.

Lemma dedup_none us :
  (forall i, chain (a i) (at_idx i us) (b i)) ->
  deduplicate_diff veqb us = None ->
  exists h, In h us /\ identity veqb h = false /\ a (uidx h) = None /\ b (uidx h) = None /\
    forall u, In u us -> identity veqb u = false -> uidx h <= uidx u.
Proof.
  intros Hch H. unfold deduplicate_diff in H.
  destruct (drop_identities veqb (stable_sort us)) as [|h t] eqn:E; [discriminate|].
  destruct (compact veqb [h] t) as [acc|] eqn:Ec; [discriminate|].
  assert (HI := initial_inv _ Hch E).
  destruct (compact_none (acc := [h]) (rest := t)) as [Ha Hb]; auto; [discriminate|].
  destruct (drop_identities_split (stable_sort us)) as [ids (He & Hf & Hd)]. rewrite E in *.
  exists h. split.
  { apply stable_sort_In. rewrite He. apply in_or_app. cbn; auto. }
  repeat split; auto.
  intros u Hu Hi. apply stable_sort_In in Hu. rewrite He in Hu. apply in_app_or in Hu.
  destruct Hu as [Hu|[<-|Hu]]; auto.
  - rewrite Forall_forall in Hf. rewrite Hf in Hi by auto. discriminate.
  - destruct HI as (_ & Hle & _). rewrite Forall_forall in Hle. auto.
Qed.

End Loop.

(** *** updates that replay form chains *)
Lemma nth_error_removelast (l : list V) i :
  nth_error (removelast l) i = if S i =? length l then None else nth_error l i.
Proof.
  destruct (snoc_cases l) as [->|[l' [z ->]]]; [destruct i; reflexivity|].
  rewrite removelast_last, app_length. cbn [length].
  destruct (Nat.eqb_spec (S i) (length l' + 1)).
  - apply nth_error_None. lia.
  - destruct (le_lt_dec (length l') i).
    + transitivity (@None V); [|symmetry]; apply nth_error_None; rewrite ?app_length; cbn; lia.
    + now rewrite nth_error_app1 by lia.
Qed.

Lemma replay1_nth l u l1 i :
  replay1 veqb l u = Some l1 ->
  (i = uidx u -> nth_error l i = uold u /\ nth_error l1 i = uval u) /\
  (i <> uidx u -> nth_error l1 i = nth_error l i).
Proof.
  unfold replay1. intros H.
  destruct (uold u) as [o|], (uval u) as [v|]; try discriminate.
  - destruct (nth_error l (uidx u)) as [x|] eqn:E; [|discriminate].
    destruct (veqb_spec x o) as [->|]; [|discriminate]. injection H as <-. split.
    + intros ->. split; auto. apply nth_error_lset_eq. eapply nth_error_lt; eauto.
    + intros Hn. apply nth_error_lset_neq. auto.
  - destruct (nth_error l (uidx u)) as [x|] eqn:E; [|discriminate].
    destruct (Nat.eqb_spec (S (uidx u)) (length l)) as [El|]; [|discriminate].
    destruct (veqb_spec x o) as [->|]; [|discriminate]. cbn in H. injection H as <-.
    rewrite nth_error_removelast. split.
    + intros ->. split; auto. rewrite (proj2 (Nat.eqb_eq _ _)); auto.
    + intros Hn. rewrite (proj2 (Nat.eqb_neq _ _)) by lia. auto.
  - destruct (Nat.eqb_spec (uidx u) (length l)) as [El|]; [|discriminate]. injection H as <-. split.
    + intros ->. rewrite El. split; [apply nth_error_None; lia|apply nth_error_snoc].
    + intros Hn. destruct (le_lt_dec (length l) i).
      * transitivity (@None V); [|symmetry]; apply nth_error_None; rewrite ?app_length; cbn; lia.
      * now rewrite nth_error_app1 by lia.
Qed.

Lemma replay_chain us : forall l l' i,
  replay veqb l us = Some l' -> chain (nth_error l i) (at_idx i us) (nth_error l' i).
Proof.
  induction us as [|u us IH]; intros l l' i H.
  - unfold replay in H. cbn in *. congruence.
  - unfold replay in H. cbn [ofold] in H.
    destruct (replay1 veqb l u) as [l1|] eqn:E; [|discriminate].
    specialize (IH _ _ i H). destruct (replay1_nth _ _ i E) as [H1 H2]. cbn [filter].
    destruct (Nat.eqb_spec (uidx u) i) as [<-|Hn].
    + destruct H1 as [H1 H1']; auto. cbn [chain]. split; congruence.
    + rewrite <- H2 by auto. exact IH.
Qed.

Lemma nth_none_up (l : list V) i j : nth_error l i = None -> i <= j -> nth_error l j = None.
Proof. rewrite !nth_error_None. lia. Qed.

End Proofs.
