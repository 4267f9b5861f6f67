(** The constructor. *)
From Verif Require Import Base SliceModel ShapeModel ShapeSpec ShapeProofs StateDataModel NodeSpec BinaryModel Num QuadModel PermModel PermSpec PermProofs DedupModel AdvModel AdvSpec AdvSpec2 AdvProofs AdvProofs2 AdvProofs5.
Local Open Scope Z_scope.

Lemma after_run_true spec : existsb (fun b => b) (after_run spec) = true <-> exists j k, (j < k)%nat /\ nth_error spec j = Some false /\ nth_error spec k = Some true.
Proof.
  induction spec as [|[] spec IH]; cbn [after_run].
  - split; [discriminate|]. intros (j & k & _ & H & _). destruct j; discriminate.
  - rewrite IH. split.
    + intros (j & k & H1 & H2 & H3). exists (S j), (S k). repeat split; auto; lia.
    + intros (j & k & H1 & H2 & H3). destruct j as [|j]; [discriminate|]. destruct k as [|k]; [lia|]. exists j, k. repeat split; auto; lia.
  - cbn [existsb orb]. split.
    + intros H. apply existsb_exists in H. destruct H as (x & H & ->). apply In_nth_error in H. destruct H as [k H]. exists O, (S k). repeat split; auto; lia.
    + intros (j & k & H1 & H2 & H3). destruct k as [|k]; [lia|]. apply existsb_exists. exists true. split; [|reflexivity]. eapply nth_error_In. exact H3.
Qed.
Lemma separatedb_spec spec : separatedb spec = true <-> separated spec.
Proof.
  unfold separatedb, separated. induction spec as [|[] spec IH]; cbn [lead skipn].
  - split; [discriminate|]. intros (i & j & k & _ & H & _). destruct i; discriminate.
  - rewrite after_run_true. split.
    + intros (j & k & H1 & H2 & H3). destruct j as [|j]; [discriminate|]. exists O, (S j), k. repeat split; auto; lia.
    + intros (i & j & k & [H1 H2] & H3 & H4 & H5). exists j, k. auto.
  - rewrite IH. split.
    + intros (i & j & k & H1 & H3 & H4 & H5). exists (S i), (S j), (S k). repeat split; auto; lia.
    + intros (i & j & k & H1 & H3 & H4 & H5). destruct i as [|i]; [discriminate|]. destruct j as [|j]; [lia|]. destruct k as [|k]; [lia|]. exists i, j, k. repeat split; auto; lia.
Qed.

Section Parse.
Variable ashape : list Z.
Variable amin : option Z.
Definition chk1 (s0 : list Z) (src0 k : nat) (d : Z) (x : aindex) : Prop :=
  match x with
  | AArr s src i lo hi => arr_check ashape amin k d i lo hi = Ok tt /\ size_equal s0 src0 s src = true /\ length s = length s0
  | ASlice _ => True
  end.
Fixpoint chks (s0 : list Z) (src0 k : nat) (sh : list Z) (ix : list aindex) : Prop :=
  match sh, ix with d :: sh', x :: ix' => chk1 s0 src0 k d x /\ chks s0 src0 (S k) sh' ix' | _, _ => True end.
Lemma chks_nth s0 src0 ix : forall k sh, length sh = length ix ->
  (chks s0 src0 k sh ix <-> forall i x d, nth_error ix i = Some x -> nth_error sh i = Some d -> chk1 s0 src0 (k + i) d x).
Proof.
  induction ix as [|x ix IH]; intros k [|d sh] L; try discriminate L; cbn [chks].
  - split; [|auto]. intros _ i x d H. destruct i; discriminate.
  - rewrite IH by (cbn in L; lia). split.
    + intros [H1 H2] [|i] y e Hy He.
      * injection Hy as <-. injection He as <-. now rewrite Nat.add_0_r.
      * rewrite Nat.add_succ_r. apply (H2 i); auto.
    + intros H. split; [rewrite <- (Nat.add_0_r k); apply (H O); reflexivity|]. intros i y e Hy He. specialize (H (S i) y e Hy He). now rewrite Nat.add_succ_r in H.
Qed.

Lemma parse_some f s0 src0 ix : forall k sh sl b1 st', length sh = length ix ->
  (parse ashape amin k sh ix (Some (f, s0, src0), sl, b1) = Ok st' <->
   chks s0 src0 k sh ix /\ st' = (Some (f, s0, src0), sl || existsb negb (map is_arr ix),
     b1 || existsb (fun b => b) (if sl then map is_arr ix else after_run (map is_arr ix)))).
Proof.
  induction ix as [|x ix IH]; intros k [|d sh] sl b1 st' L; try discriminate L; cbn [parse chks].
  - cbn [map existsb after_run]. destruct sl; cbn [existsb]; rewrite !orb_false_r; split; [intros H; injection H as <-; auto|intros [_ ->]; reflexivity|intros H; injection H as <-; auto|intros [_ ->]; reflexivity].
  - injection L as L. destruct x as [s src i lo hi|fl]; cbn [map is_arr existsb negb orb chk1 after_run].
    + destruct (arr_check ashape amin k d i lo hi) as [[]| |] eqn:Ec; cbn [rbind]; [|split; [discriminate|intros [[(H & _) _] _]; congruence]..].
      destruct (size_equal s0 src0 s src) eqn:Es; cbn [negb]; [|split; [discriminate|intros [[(_ & H & _) _] _]; congruence]].
      destruct (Nat.eqb_spec (length s) (length s0)) as [El|El]; cbn [negb]; [|split; [discriminate|intros [[(_ & _ & H) _] _]; congruence]].
      rewrite IH by exact L. assert (E : b1 || sl || existsb (fun b => b) (if sl then map is_arr ix else after_run (map is_arr ix)) =
        b1 || existsb (fun b => b) (if sl then true :: map is_arr ix else after_run (map is_arr ix))) by (destruct sl; cbn [existsb orb]; [now rewrite !orb_true_r|now rewrite !orb_false_r]).
      rewrite E. tauto.
    + rewrite IH by exact L. rewrite !orb_true_r. cbn [orb].
      assert (E : existsb (fun b => b) (if sl then false :: map is_arr ix else false :: map is_arr ix) = existsb (fun b => b) (map is_arr ix)) by (destruct sl; reflexivity).
      rewrite E. tauto.
Qed.

Lemma parse_none ix : forall k sh, length sh = length ix ->
  match find is_arr ix with
  | None => parse ashape amin k sh ix (None, false, false) = Ok (None, false, false)
  | Some (AArr s src _ _ _) => forall st', parse ashape amin k sh ix (None, false, false) = Ok st' <->
      chks s src k sh ix /\ st' = (Some (k + lead (map is_arr ix), s, src)%nat, existsb negb (skipn (lead (map is_arr ix)) (map is_arr ix)), separatedb (map is_arr ix))
  | Some (ASlice _) => False
  end.
Proof.
  induction ix as [|x ix IH]; intros k [|d sh] L; try discriminate L; cbn [find].
  - reflexivity.
  - injection L as L. destruct x as [s src i lo hi|fl]; cbn [is_arr].
    + intros st'. cbn [parse chks chk1 map is_arr lead skipn orb].
      destruct (arr_check ashape amin k d i lo hi) as [[]| |] eqn:Ec; cbn [rbind]; [|split; [discriminate|intros [[(H & _) _] _]; congruence]..].
      rewrite parse_some by exact L. rewrite Nat.add_0_r. cbn [orb existsb negb].
      assert (Es : size_equal s src s src = true) by (unfold size_equal; destruct (dynamic s); [cbn; apply Nat.eqb_refl|cbn; apply Z.eqb_refl]).
      unfold separatedb. cbn [lead skipn after_run]. rewrite Es. tauto.
    + cbn [parse map is_arr lead skipn orb]. specialize (IH (S k) sh L). destruct (find is_arr ix) as [[s src i lo hi|]|] eqn:Ef; auto.
      intros st'. rewrite IH. cbn [chks chk1]. rewrite Nat.add_succ_r. unfold separatedb. cbn [lead skipn]. tauto.
Qed.
End Parse.

Lemma find_lead ix : match find is_arr ix with
  | Some x => nth_error ix (lead (map is_arr ix)) = Some x /\ (lead (map is_arr ix) < length ix)%nat
  | None => True end.
Proof.
  induction ix as [|x ix IH]; cbn [find]; [exact I|]. destruct x; cbn [is_arr map lead length nth_error]; [split; [reflexivity|lia]|].
  destruct (find is_arr ix); [|exact I]. destruct IH. split; [assumption|lia].
Qed.
Lemma b2_true ishape spec : forall sh, b2_shape true ishape spec sh = pick false spec sh.
Proof. induction spec as [|[] spec IH]; intros [|d sh]; cbn [b2_shape pick Bool.eqb app]; auto. now rewrite IH. Qed.
Lemma b2_ins x spec : forall sh, length sh = length spec -> (lead spec < length spec)%nat -> b2_shape false [x] spec sh = ins (lead spec) x (pick false spec sh).
Proof.
  induction spec as [|[] spec IH]; intros [|d sh] L Hl; try discriminate L; cbn [lead length] in *; try lia; cbn [b2_shape pick Bool.eqb].
  - rewrite b2_true. reflexivity.
  - rewrite ins_S. f_equal. apply IH; lia.
Qed.

Section New.
Variable dbg : bool.
Variable ashape : list Z.
Variable amin : option Z.
Variable ix : list aindex.
Notation spec := (map is_arr ix).

(** What a successful construction means. *)
Lemma adv_new_inv A : adv_new dbg ashape amin ix = Ok A ->
  length ashape = length ix /\ ashape <> [] /\
  exists s src i lo hi, nth_error ix (lead spec) = Some (AArr s src i lo hi) /\ find is_arr ix = Some (AArr s src i lo hi) /\ (lead spec < length ix)%nat /\
    chks ashape amin s src 0 ashape ix /\ (separatedb spec && dynamic ashape && negb (hd false spec) = false) /\
    (length s <= 1)%nat /\ (dbg && negb (forallb (fun x => match x with ASlice f => f | _ => true end) ix) = false) /\
    let b1 := separatedb spec || hd false spec || (length s =? 0)%nat in
    (negb b1 && existsb (fun x => match x with AArr s _ _ _ _ => dynamic s | _ => false end) ix = false) /\
    let oshape := if b1 then s ++ slice_dims spec ashape else b2_shape false s spec ashape in
    let ostr := istrides oshape in
    A = Adv ashape spec b1 (length s) (lead spec)
          (if (length oshape =? 0)%nat then 1
                else if (length s =? 0)%nat then hd 0 ostr * hd 0 oshape
                else if b1 then nth (length s - 1) ostr 0 else nth (lead spec) ostr 0) s oshape ostr (istrides ashape).
Proof.
  unfold adv_new. destruct (Nat.eqb_spec (length ashape) (length ix)) as [L|]; cbn [negb]; [|discriminate].
  destruct (Nat.eqb_spec (length ashape) 0) as [|N]; [discriminate|]. intros H. split; [exact L|]. split; [intros ->; apply N; reflexivity|].
  pose proof (parse_none ashape amin ix 0 ashape L) as P. pose proof (find_lead ix) as Fl.
  destruct (find is_arr ix) as [[s src i lo hi|]|]; [|contradiction|rewrite P in H; cbn [rbind] in H; discriminate].
  destruct (parse ashape amin 0 ashape ix (None, false, false)) as [st| |] eqn:E; [|discriminate..].
  pose proof (proj1 (P st) eq_refl) as [C ->]. cbn [rbind Nat.add] in H. destruct Fl as [Fl1 Fl2].
  destruct (separatedb spec && dynamic ashape && negb (hd false spec)) eqn:E1; [discriminate|].
  destruct (Nat.ltb_spec 1 (length s)) as [|L1]; [discriminate|].
  destruct (dbg && _) eqn:E2 in H; [discriminate|].
  destruct (negb _ && _) eqn:E3 in H; [discriminate|]. injection H as <-.
  exists s, src, i, lo, hi. repeat split; auto.
Qed.

Lemma adv_new_ok A : adv_new dbg ashape amin ix = Ok A -> adv_ok A /\ ad_shape A = ashape /\ ad_spec A = spec.
Proof.
  intros H. apply adv_new_inv in H. destruct H as (L & Ne & s & src & i & lo & hi & Hn & _ & Hl & C & H1 & H2 & H3 & H4 & ->). split; [|auto].
  assert (Ls : length spec = length ashape) by (rewrite map_length; auto).
  constructor; cbn [ad_shape ad_spec ad_b1 ad_ind ad_first ad_ss ad_ishape ad_oshape ad_ostr ad_istr]; auto.
  - now rewrite map_length.
  - rewrite slice_dims_pick. destruct (separatedb spec || hd false spec || (length s =? 0)%nat) eqn:B; [reflexivity|].
    destruct s as [|x [|]]; cbn [length] in *; [rewrite orb_true_r in B; discriminate| |lia]. apply b2_ins; [lia|]. rewrite map_length. exact Hl.
  - intros B. rewrite B in H4. cbn [negb andb] in H4. destruct (dynamic s) eqn:D; [|reflexivity]. exfalso.
    assert (existsb (fun x => match x with AArr s _ _ _ _ => dynamic s | _ => false end) ix = true); [|congruence].
    apply existsb_exists. eexists. split; [eapply nth_error_In; exact Hn|exact D].
Qed.
End New.

Lemma supported_ok A konst : adv_ok A -> adv_supported konst (ad_shape A) (ad_spec A) (ad_ishape A) -> supported A konst.
Proof.
  intros OK H. unfold supported. pose proof (ok_b1 _ OK) as B. pose proof (ok_ind _ OK) as Li. destruct H as [H|[[H1 H2]|(H1 & H2 & H3)]].
  - rewrite B, H, orb_true_r. cbn. auto.
  - destruct (ad_b1 A); [|auto]. destruct (hd false (ad_spec A)) eqn:Eh; [auto|]. right. split; [exact H1|].
    destruct (separatedb (ad_spec A)) eqn:Es.
    + apply separatedb_spec in Es. destruct (H2 Es) as [|E]; [auto|]. right. rewrite Li, E. reflexivity.
    + right. cbn [orb] in B. symmetry in B. apply Nat.eqb_eq in B. exact B.
  - assert (Es : separatedb (ad_spec A) = false) by (destruct (separatedb (ad_spec A)) eqn:E; [apply separatedb_spec in E; contradiction|reflexivity]).
    assert (Eh : hd false (ad_spec A) = false) by (destruct (ad_spec A) as [|[] t]; auto; discriminate).
    rewrite Es, Eh in B. cbn [orb] in B. rewrite B. destruct (Nat.eqb_spec (ad_ind A) 0) as [E|]; [|right; rewrite (ok_first _ OK); exact H1].
    exfalso. rewrite Li in E. destruct (ad_ishape A); [contradiction|discriminate].
Qed.
Lemma shape_ok A : adv_ok A -> ad_oshape A = adv_shape (ad_shape A) (ad_spec A) (ad_ishape A).
Proof.
  intros OK. unfold adv_shape, result_axis. pose proof (ok_b1 _ OK) as B. pose proof (ok_ind _ OK) as Li. pose proof (ok_ind1 _ OK) as Li1. rewrite (ok_oshape _ OK).
  destruct (ad_ishape A) as [|x [|]]; cbn [length] in Li; try lia.
  - rewrite Li, orb_true_r in B. now rewrite B.
  - rewrite Li, orb_false_r in B. rewrite B. destruct (separatedb (ad_spec A)); cbn [orb]; [reflexivity|].
    destruct (ad_spec A) as [|[] t]; cbn [hd lead]; reflexivity.
Qed.
