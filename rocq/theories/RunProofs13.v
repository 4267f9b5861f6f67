(** Whole models: capacitated vehicle routing. *)
From Coq Require Import Relations Permutation.
From Verif Require Import Base Num SliceModel SliceSpec ShapeModel ShapeSpec StateDataModel NodeSpec NodeShape NodeLib BinaryModel BasicModel BasicSpec ViewModel ViewSpec ElemModel NaryModel NarySpec ReduceModel BoundsModel
  PermModel AdvModel AdvSpec AdvSpec2 GraphModel GraphSpec ProposeModel ProposeSpec PyModel PySpec GenModel GenSpec DisjointModel DisjointSpec GroupModel GroupSpec PyProofs PyRules PyValues GenProofs GenProofs2 GenProofs3 GenProofs4 GenProofs7
  RunModel RunSpec RunSpec2 RunProofs RunProofs2 RunProofs3 RunProofs4 RunProofs6 RunProofs7 RunProofs8 RunProofs9 RunProofs10 FileProofs2 FileProofs3.
Set Implicit Arguments.

Ltac emitted G := lazymatch goal with E : emit ?c ?ps ?sh _ ?m = Ok (?x, ?m0) |- RunProofs7.made ?s ?d _ ?B ?t _ _ _ _ ?P => destruct (@good_emit s d m B t c ps sh P x m0 G) as (B0 & G0 & Hg0 & Hx0 & Hi0 & _); [| | | |exact E|exists B0; split; [exact G0|]; split; [exact Hg0|]; split; [exact Hx0|]; now apply Hi0] end.
Section Lists.
Variables strict dbg : bool.
Notation Good := (Good strict dbg).
Notation made := (made strict dbg).

Lemma t_lists m B t n k main xs m' : Good m B t -> disjoint_lists n k m = Ok ((main, xs), m') -> (0 <= n < 2147483648)%Z -> 1 <= k ->
  exists B', Good m' B' t /\ grow m B m' B' /\ main = length (p_syms m) /\ xs = seq (S main) k /\ forall i, i < k -> info m' B' t (S main + i) (KListOf main n k i) [-1]%Z (index_of n).
Proof.
  intros G E Hn Hk. unfold disjoint_lists in E. apply bind_inv in E. destruct E as (x & m1 & E1 & E). apply bind_inv in E. destruct E as (ys & m2 & E2 & E). injection E as <- <- <-.
  destruct (@good_emit strict dbg m B t (KLists n k) [] [-1]%Z any x m1 G) as (B1 & G1 & Hg & Hx & _ & Hs & Hb); auto.
  - split; [constructor|]. split; [split; [constructor|cbn; lia]|]. cbn. repeat split; auto; lia.
  - split; [intros _; constructor|exact I].
  - assert (Hl : lateb t x = false). { apply late_new. pose proof (g_late G) as GL. rewrite Hx. exact GL. }
    assert (Hlen : length (p_syms m1) = S x) by (rewrite Hs, app_length, Hx; cbn; lia).
    assert (Ex : nth_error (p_syms m1) x = Some (Sym (KLists n k) [] [-1]%Z true)) by (rewrite Hs, Hx, nth_error_app2, Nat.sub_diag by lia; reflexivity).
    assert (W : wf_shape [-1]%Z) by (split; [constructor|cbn; lia]).
    destruct (@t_parts strict dbg m1 B1 t (KListOf x n k) [-1]%Z x k ys m2 (index_of n) G1) as (B2 & G2 & Hg2 & Hys & Hi); auto.
    + lia.
    + intros m3 i E Hi. destruct (E _ _ Ex) as (s & Es & Ec & _). split; [repeat constructor; eapply nth_lt; eauto|]. split; [exact W|]. cbn [s_cls s_pred s_shape]. rewrite Es. cbn [option_map]. rewrite Ec. repeat split; auto; lia.
    + intros m3 B3 i Hi Hb3. split; [discriminate|]. cbn [s_cls s_pred]. rewrite Hb3. intros q Hq. exact Hq.
    + exists B2. split; [exact G2|]. split; [eapply grow_trans; eauto|]. split; [exact Hx|]. rewrite Hlen in Hys, Hi. auto.
Qed.

(** [r[a:b]] of a list that changes size *)
Definition cut_of (i : pyidx) (s : slice) : Prop := to_sidx i = Ok (ISlice s) /\ is_sym i = false /\ (sstart s <= SMAX)%Z /\ exists p, basic_new (-1) [-1]%Z [8]%Z true [ISlice s] = Ok (p, true) /\ p_shape p = [-1]%Z.
Lemma t_cut m B t y main n k j i s Py x m' : Good m B t -> info m B t y (KListOf main n k j) [-1]%Z Py -> (n < 2147483648)%Z -> cut_of i s -> getitem y [i] m = Ok (x, m') ->
  made m B t x m' (KBasic [ISlice s]) [-1]%Z Py /\ exists ct, nth_error (p_syms m') x = Some (Sym (KBasic [ISlice s]) [y] [-1]%Z ct).
Proof.
  intros G Iy Hn (Hi & His & Hs & p & Hb & Hsh) E. pose proof Iy as ((ps & Ey) & _). rewrite (@not_adv_getitem _ _ _ _ _ _ _ Ey I) in E. unfold array_getitem in E. unfold bind in E at 1. unfold look in E at 1. rewrite Ey in E. cbv beta iota in E.
  cbn [s_shape length Nat.sub repeat app forallb] in E. rewrite His in E. cbn [negb andb] in E. assert (Hr : rmap to_sidx [i] = Ok [ISlice s]) by (cbn [rmap]; rewrite Hi; reflexivity).
  split.
  - rewrite <- Hsh. refine (@t_range strict dbg m B t y i _ Py s p x m' G Iy E _ Hr Hs Hb _).
    + eexists. split; [exact Ey|]. exact Hn.
    + rewrite Hsh. split; [constructor|cbn; lia].
  - unfold basic in E. destruct (info_look Iy) as [py Ly]. unfold bind in E. rewrite Ly in E. cbv beta iota in E. rewrite Hr in E. unfold lift in E. cbn [rbind s_shape s_contig] in E.
    change (shape_to_size [-1]%Z) with (-1)%Z in E. change (shape_to_strides [-1]%Z) with [8]%Z in E. rewrite Hb in E. cbn [rbind fst snd] in E. rewrite Hsh in E.
    unfold emit in E. injection E as <- <-. cbn [p_syms]. rewrite nth_error_app2, Nat.sub_diag by lia. exists true. reflexivity.
Qed.

(** [x[a]] and [x[a, b]] with index arrays that change size *)
Lemma t_gather m B t y cy r Py z cz x m' : strict = false -> Good m B t -> info m B t y cy [r] Py -> info m B t z cz [-1]%Z (index_of r) -> indices m z -> getitem y [PArr z] m = Ok (x, m') -> not_adv cy -> (0 <= r < 2147483648)%Z ->
  made m B t x m' (KAdv [true]) [-1]%Z Py.
Proof.
  intros Hst G Iy Iz Hz E Ha Hr. pose proof Iy as ((ps & Ey) & _). rewrite (@not_adv_getitem _ _ _ _ _ _ _ Ey Ha) in E. unfold array_getitem in E. unfold bind in E at 1. unfold look in E at 1. rewrite Ey in E. cbv beta iota in E.
  cbn [s_shape length Nat.sub repeat app forallb is_sym is_full full negb andb orb] in E.
  refine (@t_adv_gen strict dbg m B t y [PArr z] cy [r] Py [-1]%Z [-1]%Z x m' G Iy E _ _ _ _ _ _ _).
  - cbn. lia.
  - right. split; [exact Hst|]. split; [constructor; [exact Hz|constructor]|]. now left.
  - constructor; [|constructor]. eauto.
  - constructor; [now left|constructor].
  - intros d'. destruct (@adv_new1_any d' r [-1]%Z) as (A' & X1 & X2 & X3 & X4); [lia|cbn; lia|]. exists A'. auto.
  - split; [constructor|cbn; lia].
  - now left.
Qed.
Lemma t_gather2 m B t y cy r k Py z z' cz cz' x m' : strict = false -> Good m B t -> info m B t y cy [r; k] Py -> info m B t z cz [-1]%Z (index_of r) -> info m B t z' cz' [-1]%Z (index_of k) ->
  indices m z -> indices m z' -> same_size m z z' -> getitem y [PArr z; PArr z'] m = Ok (x, m') -> not_adv cy -> (0 <= r)%Z -> (0 <= k)%Z -> made m B t x m' (KAdv [true; true]) [-1]%Z Py.
Proof.
  intros Hst G Iy Iz Iz' Hz Hz' Hsz E Ha Hr Hk. pose proof Iy as ((ps & Ey) & _). rewrite (@not_adv_getitem _ _ _ _ _ _ _ Ey Ha) in E. unfold array_getitem in E. unfold bind in E at 1. unfold look in E at 1. rewrite Ey in E. cbv beta iota in E.
  cbn [s_shape length Nat.sub repeat app forallb is_sym is_full full negb andb orb] in E.
  refine (@t_adv_gen strict dbg m B t y [PArr z; PArr z'] cy [r; k] Py [-1]%Z [-1]%Z x m' G Iy E _ _ _ _ _ _ _).
  - cbn. lia.
  - right. split; [exact Hst|]. split; [constructor; [exact Hz|constructor; [exact Hz'|constructor]]|]. right. constructor; [exact Hsz|constructor].
  - constructor; [eauto|]. constructor; [eauto|constructor].
  - constructor; [now left|constructor; [now left|constructor]].
  - intros d'. destruct (@adv_new2_any d' r k [-1]%Z) as (A' & X1 & X2 & X3 & X4); [lia|lia|cbn; lia|]. exists A'. auto.
  - split; [constructor|cbn; lia].
  - now left.
Qed.
End Lists.

Definition init : slice := Slice 0 (-1) 1.
Definition tail : slice := Slice 1 SMAX 1.
Lemma init_tail (sh : list Z) (a v v' : list num) : sh = [-1]%Z -> meaning (KBasic [ISlice init]) [sh] [a] = Some v -> meaning (KBasic [ISlice tail]) [sh] [a] = Some v' -> length v = length v'.
Proof.
  intros ->. cbn [meaning]. intros H1 H2. assert (Hl : (Z.of_nat (length a) < 2147483648)%Z) by (unfold view_fun in H1; destruct (Z.ltb_spec (Z.of_nat (length a)) 2147483648); [assumption|discriminate]).
  unfold init, tail in *. rewrite view_slice in H1 by (auto; now right). rewrite view_slice in H2 by (auto; now right). injection H1 as <-. injection H2 as <-.
  rewrite cut_init, cut_tail by (unfold SMAX; lia). rewrite removelast_firstn_len, firstn_length. destruct a; cbn; lia.
Qed.
Lemma indices_cut m y s ct main n k j ps ct' x : nth_error (p_syms m) x = Some (Sym (KBasic [ISlice s]) [y] [-1]%Z ct) -> nth_error (p_syms m) y = Some (Sym (KListOf main n k j) ps [-1]%Z ct') -> indices m x.
Proof. intros Hx Hy. right. exists [ISlice s], y, [-1]%Z, ct. split; [exact Hx|]. split; [eexists; split; [exact Hy|reflexivity]|]. unfold shape_at. now rewrite Hy. Qed.
Lemma indices_list m main n k j ps ct x sh : nth_error (p_syms m) x = Some (Sym (KListOf main n k j) ps sh ct) -> indices m x.
Proof. intros Hx. left. eexists. split; [exact Hx|reflexivity]. Qed.
Lemma same_cuts m y x x' ct ct' main n k j ps c : nth_error (p_syms m) x = Some (Sym (KBasic [ISlice init]) [y] [-1]%Z ct) -> nth_error (p_syms m) x' = Some (Sym (KBasic [ISlice tail]) [y] [-1]%Z ct') ->
  nth_error (p_syms m) y = Some (Sym (KListOf main n k j) ps [-1]%Z c) -> same_size m x x'.
Proof.
  intros Hx Hx' Hy. exists y, [ISlice init], [-1]%Z, ct, [ISlice tail], [-1]%Z, ct'. split; [exact Hx|]. split; [exact Hx'|]. split; [eexists; split; [exact Hy|reflexivity]|]. intros a v v'. apply init_tail. unfold shape_at. now rewrite Hy.
Qed.
(** What a view is of stays. *)
Lemma view_stays m B m' B' x ix y sh ct : grow m B m' B' -> nth_error (p_syms m) x = Some (Sym (KBasic ix) [y] sh ct) -> nth_error (p_syms m') x = Some (Sym (KBasic ix) [y] sh ct).
Proof.
  intros [E _] Hx. destruct (E _ _ Hx) as ([c' ps' sh' ct'] & Hx' & E1 & E2 & E3 & E4). cbn in *. subst. rewrite E4 in Hx' by discriminate. exact Hx'.
Qed.
Lemma cut_first : cut_of (PSlice None (Some 1%Z) None) (Slice 0 1 1).
Proof. split; [reflexivity|]. split; [reflexivity|]. split; [unfold SMAX; cbn; lia|]. eexists. split; reflexivity. Qed.
Lemma cut_last : cut_of (PSlice (Some (-1)%Z) None None) (Slice (-1) SMAX 1).
Proof. split; [reflexivity|]. split; [reflexivity|]. split; [unfold SMAX; cbn; lia|]. eexists. split; reflexivity. Qed.
Lemma cut_but_last : cut_of (PSlice None (Some (-1)%Z) None) init.
Proof. split; [reflexivity|]. split; [reflexivity|]. split; [unfold SMAX; cbn; lia|]. eexists. split; reflexivity. Qed.
Lemma cut_but_first : cut_of (PSlice (Some 1%Z) None None) tail.
Proof. split; [reflexivity|]. split; [reflexivity|]. split; [unfold SMAX; cbn; lia|]. eexists. split; reflexivity. Qed.

Section Routes.
Variable dbg : bool.
Variables (demand : list num) (capacity : num) (D : list (list num)) (out back : list num) (k : nat).
Let n := length demand.
Hypothesis Hn : 1 <= n.
Hypothesis Hs : (Z.of_nat (n * n) < 2147483648)%Z.
Hypothesis Hk : 1 <= k.
Hypothesis HD : matrix n n D.
Hypothesis Ho : length out = n.
Hypothesis Hb : length back = n.

Lemma cvrp_core_good r m : cvrp_core demand k capacity D out back no_model = Ok (r, m) -> exists B t, Good false dbg m B t.
Proof.
  intros E. unfold cvrp_core in E. cbv zeta in E. unfold zlen in E. fold n in E. take E. apply unless_inv in E0. destruct E0 as [-> _]. assert (Hn1 : (0 <= Z.of_nat n < 2147483648)%Z) by nia.
  assert (Fit : forall v : list num, length v = n -> fits [Z.of_nat n] v) by (intros v Ev; unfold fits, fits_len; cbn; destruct (Z.ltb_spec (Z.of_nat n) 0); lia).
  assert (W1 : wf_shape [Z.of_nat n]) by (apply wf_shape1; lia). assert (HA : forall l, Forall any l) by (intros l; apply Forall_forall; intros; exact I). pose proof (good_empty false dbg) as G.
  take E. destruct (t_const (P := any) G E0) as (B1 & G1 & H1 & X1 & I1); [apply wf_shape2; nia|now apply fits_concat|apply HA|]. clear E0.
  take E. destruct (t_const (P := any) G1 E0 W1) as (B2 & G2 & H2 & X2 & I2); [auto|apply HA|]. clear E0. apply (info_grow H2) in I1.
  take E. destruct (t_const (P := any) G2 E0 W1) as (B3 & G3 & H3 & X3 & I3); [auto|apply HA|]. clear E0. apply (info_grow H3) in I1, I2.
  take E. destruct (t_const (P := any) G3 E0 W1) as (B4 & G4 & H4 & X4 & I4); [auto|apply HA|]. clear E0. apply (info_grow H4) in I1, I2, I3.
  take E. destruct (t_const (P := any) G4 E0) as (B5 & G5 & H5 & X5 & I5); [apply wf_shape0|reflexivity|apply HA|]. clear E0. apply (info_grow H5) in I1, I2, I3, I4.
  take E. destruct x5 as [main routes]. destruct (t_lists G5 E0 Hn1 Hk) as (B6 & G6 & H6 & X6 & Xr & I6). clear E0. apply (info_grow H6) in I1, I2, I3, I4, I5.
  take E. pose (Inv := fun (done : list nat) (costs : list nat) m' => exists B', Good false dbg m' B' [] /\ grow m5 B6 m' B' /\ length costs = 3 * length done /\ Forall (fun c => exists cc P, info m' B' [] c cc [] P) costs).
  assert (HI : Inv ([] ++ routes) x5 m6).
  { refine (@pfor_inv _ _ Inv _ [] routes [] m5 x5 m6 _ _ E0).
    - exists B6. split; [exact G6|]. split; [apply grow_refl|]. split; [reflexivity|constructor].
    - intros done b costs ma costs' mb (rest & Hin) (Ba & Ga & Hga & Hla & Fa) Eb. assert (Hbi : In b routes) by (cbn [app] in Hin; rewrite Hin; apply in_or_app; right; now left). rewrite Xr in Hbi. apply in_seq in Hbi.
      assert (J6 : exists i, info ma Ba [] b (KListOf main (Z.of_nat n) k i) [-1]%Z (index_of (Z.of_nat n))) by (exists (b - S main); replace b with (S main + (b - S main)) at 1 by lia; apply (info_grow Hga); apply I6; lia). destruct J6 as [i J6].
      pose proof (info_grow Hga I1) as J1. pose proof (info_grow Hga I2) as J2. pose proof (info_grow Hga I3) as J3. pose proof (info_grow Hga I4) as J4. pose proof (info_grow Hga I5) as J5.
      take Eb. destruct (t_cut Ga J6 (proj2 Hn1) cut_first E1) as [(Ca & Ka & Ta & Xa & Ia) [ca Ea]]. clear E1. apply (info_grow Ta) in J1, J2, J3, J4, J5, J6.
      take Eb. assert (Za : indices m7 x6) by (destruct J6 as ((ps & Ej) & _); eapply indices_cut; eauto). destruct (t_gather eq_refl Ka J2 Ia Za E1 I Hn1) as (Cb & Kb & Tb & Xb & Ib). clear E1. apply (info_grow Tb) in J1, J2, J3, J4, J5, J6.
      take Eb. destruct (t_red _ Kb Ib E1) as (Cc & Kc & Tc & Xc & Ic). clear E1. apply (info_grow Tc) in J1, J2, J3, J4, J5, J6. pose proof (grow_trans Ta (grow_trans Tb Tc)) as U1.
      take Eb. destruct (t_cut Kc J6 (proj2 Hn1) cut_last E1) as [(Cd & Kd & Td & Xd & Id) [cd Ed]]. clear E1. apply (info_grow Td) in J1, J2, J3, J4, J5, J6, Ic.
      take Eb. assert (Zd : indices m10 x9) by (destruct J6 as ((ps & Ej) & _); eapply indices_cut; eauto). destruct (t_gather eq_refl Kd J3 Id Zd E1 I Hn1) as (Ce & Ke & Te & Xe & Ie). clear E1. apply (info_grow Te) in J1, J2, J3, J4, J5, J6, Ic.
      take Eb. destruct (t_red _ Ke Ie E1) as (Cf & Kf & Tf & Xf & If). clear E1. apply (info_grow Tf) in J1, J2, J3, J4, J5, J6, Ic. pose proof (grow_trans U1 (grow_trans Td (grow_trans Te Tf))) as U2.
      take Eb. destruct (t_cut Kf J6 (proj2 Hn1) cut_but_last E1) as [(Cg & Kg & Tg & Xg & Ig) [cg Eg]]. clear E1. apply (info_grow Tg) in J1, J2, J3, J4, J5, J6, Ic, If.
      take Eb. destruct (t_cut Kg J6 (proj2 Hn1) cut_but_first E1) as [(Ch & Kh & Th & Xh & Ih) [ch Eh]]. clear E1. apply (info_grow Th) in J1, J2, J3, J4, J5, J6, Ic, If, Ig. apply (@view_stays _ _ _ _ _ _ _ _ _ Th) in Eg.
      assert (ZZ : indices m14 x12 /\ indices m14 x13 /\ same_size m14 x12 x13 /\ indices m14 b) by (destruct J6 as ((ps & Ej) & _); split; [eapply indices_cut; eauto|]; split; [eapply indices_cut; eauto|]; split; [eapply same_cuts; eauto|eapply indices_list; eauto]).
      destruct ZZ as (Z1 & Z2 & Z3 & Z4).
      take Eb. destruct (t_gather2 eq_refl Kh J1 Ig Ih Z1 Z2 Z3 E1 I (proj1 Hn1) (proj1 Hn1)) as (Cj & Kj & Tj & Xj & Ij). clear E1. pose proof (indices_ext (proj1 Tj) Z4) as Z5. apply (info_grow Tj) in J1, J2, J3, J4, J5, J6, Ic, If.
      take Eb. destruct (t_red _ Kj Ij E1) as (Ck & Kk & Tk & Xk & Ik). clear E1. pose proof (indices_ext (proj1 Tk) Z5) as Z6. apply (info_grow Tk) in J1, J2, J3, J4, J5, J6, Ic, If.
      take Eb. destruct (t_gather eq_refl Kk J4 J6 Z6 E1 I Hn1) as (Cl & Kl & Tl & Xl & Il). clear E1. apply (info_grow Tl) in J5, Ic, If, Ik.
      take Eb. destruct (t_red _ Kl Il E1) as (Cm & Km & Tm & Xm & Im). clear E1. apply (info_grow Tm) in J5, Ic, If, Ik.
      take Eb. destruct (t_bin (sh := []) Km Im J5 E1) as (Cn & Kn & Tn & Xn & In'); [discriminate|discriminate|reflexivity|apply wf_shape0|now left|]. clear E1. apply (info_grow Tn) in Ic, If, Ik.
      take Eb. injection Eb as <- <-. destruct (t_constrain _ Kn E1) as [Ko To]. apply (info_grow To) in Ic, If, Ik.
      assert (U3 : grow ma Ba m20 Cn) by (repeat (eapply grow_trans; [eassumption|]); apply grow_refl).
      exists Cn. split; [exact Ko|]. split; [eapply grow_trans; eauto|]. split; [rewrite !app_length, Hla; cbn [length]; lia|]. apply Forall_app. split; [|repeat constructor; eauto].
      eapply Forall_impl; [|exact Fa]. intros z (cz & Pz & Iz). exists cz, Pz. eapply info_grow; eauto. }
  destruct HI as (B7 & G7 & H7 & L7 & F7). cbn [app] in L7. rewrite Xr, seq_length in L7. clear E0. take E.
  assert (Hne : several BPlus NAdd x5 m6 = nary NAdd x5 m6) by (destruct x5 as [|? [|? [|? ?]]]; cbn [length] in L7; try lia; reflexivity). rewrite Hne in E0.
  destruct (t_nary (sh := []) NAdd G7 E0 F7) as (B8 & G8 & _); [|apply wf_shape0|].
  - destruct x5 as [|a l]; [cbn in L7; lia|]. clear. cbn [map]. unfold nary_new. induction l; [reflexivity|exact IHl].
  - take E. injection E as _ <-. destruct (t_minimize _ G8 E1) as (G9 & _). eauto.
Qed.
End Routes.

(** A partition of the numbers below [n] into lists. *)
Lemma partition_lists n ls : list_partition n ls -> exists routes, ls = map numbers routes /\ Permutation (concat routes) (seq 0 n).
Proof.
  intros [Hd Hi]. assert (F : Forall (Forall (fun q => exists i, q = zq (Z.of_nat i) /\ i < n)) ls).
  { rewrite Forall_forall. intros l Hl. rewrite Forall_forall. intros q Hq. destruct (proj1 (Hi q)) as (z & -> & Hz); [apply in_concat; eauto|]. exists (Z.to_nat z). rewrite Z2Nat.id by lia. split; [reflexivity|lia]. }
  assert (E : exists routes, ls = map numbers routes).
  { clear - F. induction F as [|l ls Hl _ (rs & ->)]; [now exists []|]. assert (H : exists r, l = numbers r) by (induction Hl as [|q l (i & -> & _) _ (r & ->)]; [now exists []|now exists (i :: r)]). destruct H as [r ->]. now exists (r :: rs). }
  destruct E as [rs ->]. exists rs. split; [reflexivity|].
  assert (Hc : concat (map numbers rs) = numbers (concat rs)) by (clear; unfold numbers; now rewrite concat_map). rewrite Hc in Hd, Hi.
  apply NoDup_Permutation; [eapply NoDup_map_inv; exact Hd|apply seq_NoDup|]. intros i. rewrite in_seq. split.
  - intros H. destruct (proj1 (Hi (zq (Z.of_nat i)))) as (z & Hz & Hb); [apply in_map_iff; eauto|]. apply zq_inj in Hz. lia.
  - intros H. assert (Hin : In (zq (Z.of_nat i)) (numbers (concat rs))) by (apply Hi; exists (Z.of_nat i); split; [reflexivity|lia]). apply in_map_iff in Hin. destruct Hin as (j & Hj & Hin). apply zq_inj in Hj. now replace i with j by lia.
Qed.

Theorem cvrp_run dbg n k demand capacity D : 1 <= n -> (Z.of_nat (n * n) < 2147483648)%Z -> 1 <= k -> matrix (S n) (S n) D -> Forall nonnegative D ->
  length demand = n -> Forall (fun x => 0 < x)%Qc demand -> (0 < capacity)%Qc -> (qsum_of demand <= zq (Z.of_nat k) * capacity)%Qc ->
  exists m g obj, capacitated_vehicle_routing (0%Qc :: demand) k capacity D no_model = Ok ((5, seq 6 k), m) /\ history (build m) = Ok g /\ p_obj m = Some obj /\ faithful false dbg m g /\
    forall st, running false dbg m g st -> exists routes, length routes = k /\ Permutation (concat routes) (seq 0 n) /\
      (forall i, i < k -> pin_of (nodes false dbg m) g st (6 + i) = Some (still (numbers (nth i routes [])))) /\
      pin_of (nodes false dbg m) g st obj = Some (still [qsum_of (map (trip D) routes)]) /\
      exists sat, Forall2 (fun c b => pin_of (nodes false dbg m) g st c = Some (still [b2q b])) (p_cons m) sat /\
        (Forall (fun b => b = true) sat <-> Forall (fun r => GenSpec.total demand r <= capacity)%Qc routes).
Proof.
  intros Hn Hs Hk HD H0 Hl Hpos Hc Htot. assert (Hs1 : (Z.of_nat n < 2147483647)%Z) by nia.
  destruct (@cvrp_model n k demand capacity D Hn Hs1 Hk HD H0 Hl Hpos Hc Htot) as (m & E & _ & Dm & H).
  assert (G : exists B t, Good false dbg m B t).
  { pose proof E as E'. unfold capacitated_vehicle_routing in E'. do 3 (take E'; first [apply unless_inv in E0; destruct E0 as [-> _]|apply require_vector_inv in E0; subst]). take E'. apply unless_inv in E0. destruct E0 as [-> _].
    take E'. assert (m0 = no_model) as -> by (assert (Hn1 : 1 <= S n) by lia; unfold require_square, bind in E0; rewrite (require_matrix_ok _ Hn1 HD H0) in E0; rewrite Z.eqb_refl in E0; now injection E0 as _ <-). do 3 (take E'; apply unless_inv in E1; destruct E1 as [-> _]). cbn [tl] in E'.
    destruct HD as [H1 H2]. destruct D as [|row D']; [cbn in H1; lia|]. cbn [tl hd] in E'. cbn in H1. inversion H2 as [|? ? E1 E2]; subst.
    eapply cvrp_core_good; [| | | | | |exact E']; try lia; auto.
    - split; [rewrite map_length; lia|]. rewrite Forall_map. eapply Forall_impl; [|exact E2]. cbv beta. intros [|? ?] Hx; cbn in Hx |- *; lia.
    - destruct row; cbn in E1 |- *; lia.
    - rewrite map_length. lia. }
  destruct G as (B & t & G). destruct (good_runs G) as (g & Eg & L & Fa).
  assert (Hobj : exists obj, p_obj m = Some obj).
  { pose (b0 := seq 0 n :: repeat [] (k - 1)). destruct (H (fun i => numbers (nth (i - 6) b0 [])) b0) as [(x & Hx & _) _]; eauto.
    - unfold b0. cbn [length]. rewrite repeat_length. lia.
    - unfold b0. cbn [concat]. rewrite repeat_concat, app_nil_r. apply Permutation_refl.
    - intros i _. now replace (6 + i - 6) with i by lia. }
  destruct Hobj as [obj Ho]. exists m, g, obj. split; [exact E|]. split; [exact Eg|]. split; [exact Ho|]. split; [exact Fa|]. intros st Hr. destruct Fa as (_ & Fa & _). destruct (Fa st Hr) as (dv & Hd & Sh).
  assert (HDm : forall i, i < k -> exists ps ct, nth_error (p_syms m) (6 + i) = Some (Sym (KListOf 5 (Z.of_nat n) k i) ps [-1]%Z ct)) by (intros i Hi; exact (Dm i Hi)).
  destruct (HDm 0 Hk) as (ps & ct & E0). destruct (sound_at (g_sound G) _ E0) as (_ & _ & S0). cbn [s_cls s_pred] in S0. destruct ps as [|y [|]]; try contradiction. destruct S0 as (-> & Hm & _).
  destruct (main_at (g_sound G) _ Hm eq_refl) as (t2 & Et & Ect & _). destruct (Hd _ _ Et) as [_ Sd]. rewrite Ect in Sd. cbn [shared] in Sd. destruct Sd as (ls & Hp & Ll & Hrows). rewrite Nat2Z.id in Hp. destruct (partition_lists Hp) as (routes & -> & HP). rewrite map_length in Ll.
  assert (Hdv : forall i, i < k -> dv (6 + i) = numbers (nth i routes [])).
  { intros i Hi. destruct (HDm i Hi) as (ps & c2 & Ei). specialize (Hrows (6 + i) i). rewrite Ei in Hrows. specialize (Hrows eq_refl). symmetry. apply (nth_error_nth _ _ (numbers [])) in Hrows. rewrite map_nth in Hrows. exact Hrows. }
  destruct (H dv routes Ll HP Hdv) as [(x & Hx & Hy) (bs & Hb & Hf)].
  exists routes. split; [exact Ll|]. split; [exact HP|]. split; [|split].
  - intros i Hi. apply (shown_value Sh). rewrite <- Hdv by exact Hi. destruct (HDm i Hi) as (ps & c2 & Ei). apply y_dec with (1 := Ei). reflexivity.
  - apply (shown_value Sh). congruence.
  - exists bs. split; [|exact Hf]. clear - Hb Sh. induction Hb; constructor; auto. now apply (shown_value Sh).
Qed.
