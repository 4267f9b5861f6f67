(** What views of changing size report has been elements of the array viewed. *)
From Verif Require Import Base Num SliceModel ShapeModel StateDataModel NodeSpec BinaryModel BasicModel ViewModel.
Local Open Scope Z_scope.

Section Values.
Context {V : Type}.
Variable veqb : V -> V -> bool.
Variable dbg : bool.
Variable ps : list Z.
Variable p : parsed.
Variable D : V -> Prop.
(** Every new value is in [D]. *)
Definition brings (u : update V) : Prop := forall x, uval u = Some x -> D x.

Lemma chk_inv {A} c (k : res A) r : chk dbg c k = Ok r -> k = Ok r.
Proof. unfold chk. destruct (dbg && negb c); [discriminate|auto]. Qed.
Lemma rbind_inv {A B} (x : res A) (f : A -> res B) r : rbind x f = Ok r -> exists a, x = Ok a /\ f a = Ok r.
Proof. destruct x; cbn; intros H; try discriminate. eauto. Qed.
Lemma vget_inv {A} (o : option A) (k : A -> res (@bst V)) r : vget o k = Ok r -> exists a, o = Some a /\ k a = Ok r.
Proof. destruct o; cbn; intros H; try discriminate. eauto. Qed.
Lemma at_ptr_in (a : list V) z x : at_ptr a z = Some x -> In x a.
Proof. unfold at_ptr. destruct (z <? 0); [discriminate|]. apply nth_error_In. Qed.
Lemma rfold_inv {A B} (f : A -> B -> res A) (I : A -> Prop) : (forall a b a', I a -> f a b = Ok a' -> I a') -> forall l a r, I a -> rfold f a l = Ok r -> I r.
Proof. intros H. induction l as [|b l IH]; cbn [rfold]; intros a r Ha E; [congruence|]. apply rbind_inv in E. destruct E as (a' & E1 & E2). eauto. Qed.
Lemma rfold_inv_in {A B} (f : A -> B -> res A) (I : A -> Prop) : forall l a r, (forall a b a', In b l -> I a -> f a b = Ok a' -> I a') -> I a -> rfold f a l = Ok r -> I r.
Proof.
  induction l as [|b l IH]; cbn [rfold]; intros a r H Ha E; [congruence|]. apply rbind_inv in E. destruct E as (a' & E1 & E2). apply (IH a'); auto; [|eapply H; eauto; now left].
  intros. eapply H; eauto. now right.
Qed.
Lemma all_some_values {X} (f : X -> option V) l r : all_some (map f l) = Some r -> (forall x y, f x = Some y -> D y) -> Forall D r.
Proof.
  revert r. induction l as [|x l IH]; cbn [map all_some]; intros r E H; [injection E as <-; constructor|]. destruct (f x) as [y|] eqn:Ey; [|discriminate]. destruct (all_some (map f l)) as [r'|]; [|discriminate].
  injection E as <-. constructor; eauto.
Qed.
Lemma lset_forall {A} (P : A -> Prop) l : forall k x, Forall P l -> P x -> Forall P (lset k x l).
Proof. induction l as [|a l IH]; intros [|k] x Hl Hx; cbn [lset]; auto; inversion Hl; subst; constructor; auto. Qed.
Lemma overlap_brings : forall new cache i, Forall D new -> Forall brings (cache_overlap veqb i cache new).
Proof.
  induction new as [|x new IH]; intros [|c cache] i H; cbn [cache_overlap]; try constructor. inversion H; subst. destruct (veqb c x); [auto|]. constructor; auto. intros y. cbn [change uval]. congruence.
Qed.
Lemma grown_brings : forall new i, Forall D new -> Forall brings (cache_grown i new).
Proof. induction new as [|x new IH]; intros i H; cbn [cache_grown]; constructor; inversion H; subst; auto. intros y. cbn [placement uval]. congruence. Qed.
Lemma shrunk_brings : forall cache i, Forall brings (cache_shrunk i cache : list (update V)).
Proof. induction cache as [|c cache IH]; intros i; cbn [cache_shrunk]; [constructor|]. apply Forall_app. split; [auto|]. repeat constructor. intros y. cbn [removal uval]. discriminate. Qed.
Lemma dynamic_shape_keeps st a st' : update_dynamic_shape (V := V) ps p st a = Ok st' -> b_diff st' = b_diff st.
Proof.
  unfold update_dynamic_shape. destruct (p_axis0 p); [|discriminate]. intros E. apply rbind_inv in E. destruct E as (f & _ & E). apply rbind_inv in E. destruct E as (n & _ & E). now injection E as <-.
Qed.

Theorem view_brings st q st' : vdyn p = true -> Forall D (pview q) -> Forall brings (pdiff q) -> view_prop veqb dbg ps p true st q = Ok st' -> Forall brings (b_diff st').
Proof.
  intros Hd Hv Hu E. unfold view_prop in E. apply chk_inv in E. rewrite Hd in E. cbn [andb] in E. destruct (p_axis0 p) as [s|]; [|discriminate]. destruct (sstart s <? 0).
  - unfold prop_cached in E. apply chk_inv in E. apply rbind_inv in E. destruct E as (f & _ & E). apply rbind_inv in E. destruct E as (n & _ & E). apply chk_inv in E. apply rbind_inv in E. destruct E as (st1 & _ & E).
    apply vget_inv in E. destruct E as (v & Ev & E). injection E as <-. cbn [b_diff]. assert (Hn : Forall D v).
    { unfold bview in Ev. eapply all_some_values; [exact Ev|]. intros k y Hy. apply at_ptr_in in Hy. rewrite Forall_forall in Hv. auto. }
    unfold cache_diff. apply Forall_app. split; [now apply overlap_brings|]. apply Forall_app. split; [|apply shrunk_brings]. apply grown_brings.
    rewrite <- (firstn_skipn (Nat.min (length (b_cache st1)) (length v)) v) in Hn. apply Forall_app in Hn. apply Hn.
  - unfold prop_dyn in E. apply chk_inv in E. do 5 (apply rbind_inv in E; destruct E as (? & _ & E)). apply rbind_inv in E. destruct E as (d0 & E0 & E). apply rbind_inv in E. destruct E as (d2 & E2 & E). apply rbind_inv in E. destruct E as (d3 & E3 & E).
    apply dynamic_shape_keeps in E. rewrite E. cbn [b_diff]. clear E.
    assert (H0 : Forall brings d0).
    { refine (rfold_inv _ (Forall brings) _ _ _ _ _ E0); [|constructor]. intros l i l' Hl Ei. destruct (_ <? _); [destruct (at_ptr _ _) as [y|] eqn:Ey; [|discriminate]|]; injection Ei as <-; apply Forall_app; (split; [exact Hl|repeat constructor]); intros z; cbn [uval]; [|discriminate].
      intros [= <-]. apply at_ptr_in in Ey. rewrite Forall_forall in Hv. auto. }
    assert (H2 : Forall brings d2).
    { refine (rfold_inv_in _ (Forall brings) _ _ _ _ _ E2).
      - intros l u l' Hin Hl Ei. assert (Hbu : brings u) by (rewrite Forall_forall in Hu; auto). unfold dyn_step in Ei.
        assert (He : forall k e, nth_error l k = Some e -> brings e) by (intros k e Hk; rewrite Forall_forall in Hl; apply Hl; eapply nth_error_In; eauto).
        destruct (_ && (_ && _)).
        { destruct (nth_error l _) as [e|] eqn:Ee; [|discriminate]. destruct (uold e); [injection Ei as <-; exact Hl|]. apply chk_inv in Ei. injection Ei as <-. apply lset_forall; [exact Hl|]. exact (He _ _ Ee). }
        destruct (_ && _).
        { destruct (nth_error l _) as [e|] eqn:Ee; [|discriminate]. apply chk_inv in Ei. destruct (uold e); [injection Ei as <-|apply chk_inv in Ei; injection Ei as <-]; (apply lset_forall; [exact Hl|exact Hbu]). }
        destruct (_ && _); injection Ei as <-; [|exact Hl]. apply Forall_app. split; [exact Hl|]. repeat constructor. exact Hbu.
      - apply Forall_app. split; [exact H0|]. apply Forall_map, Forall_forall. intros i _ y. cbn [uval]. discriminate. }
    destruct (_ <? _) in E3; [|congruence]. refine (rfold_inv _ (Forall brings) _ _ _ _ H2 E3). intros l i l' Hl Ei. unfold fill_old in Ei. destruct (nth_error l i) as [e|] eqn:Ee; [|discriminate]. destruct (uold e); [congruence|].
    destruct (at_ptr _ _); [|discriminate]. injection Ei as <-. apply lset_forall; [exact Hl|]. rewrite Forall_forall in Hl. apply (Hl e). eapply nth_error_In; eauto.
Qed.
End Values.
