(** Values of symbols, and reasoning about the construction of models. *)
From Verif Require Import Base Num SliceModel ShapeModel StateDataModel NodeSpec BinaryModel BasicModel ViewModel ElemModel NaryModel
  ReduceModel BoundsModel PermModel AdvModel NarySpec ReduceSpec BinarySpec ElemSpec PermSpec ViewSpec AdvSpec ProposeSpec PyModel PySpec.

Set Implicit Arguments.

Lemma Forall2_imp {A C} (P Q : A -> C -> Prop) l l' : (forall a b, P a b -> Q a b) -> Forall2 P l l' -> Forall2 Q l l'.
Proof. intros H F. induction F; constructor; auto. Qed.

(** Induction over derivations. *)
Lemma yields_ind' m dv (P : nat -> list num -> Prop) :
  (forall x s, nth_error (p_syms m) x = Some s -> decided_cls (s_cls s) = true -> P x (dv x)) ->
  (forall x s ins v, nth_error (p_syms m) x = Some s -> decided_cls (s_cls s) = false ->
     Forall2 (yields m dv) (s_pred s) ins -> Forall2 P (s_pred s) ins ->
     meaning (s_cls s) (shapes_of m (s_pred s)) ins = Some v -> P x v) ->
  forall x v, yields m dv x v -> P x v.
Proof.
  intros Hd Ho. fix IH 3. intros x v H. destruct H as [x s Hs Hc|x s ins v Hs Hc Hp Hm].
  - exact (Hd x s Hs Hc).
  - apply (Ho x s ins v Hs Hc Hp); [|exact Hm].
    clear Hm Hs Hc. induction Hp as [|a b l l' Hab Hl IHl]; constructor; [exact (IH a b Hab)|exact IHl].
Qed.

Theorem yields_unique m dv x v w : yields m dv x v -> yields m dv x w -> v = w.
Proof.
  intros H. revert w. induction H as [x s Hs Hc|x s ins v Hs Hc Hp IH Hm] using yields_ind'; intros w Hw.
  - inversion Hw as [x' s' Hs' Hc'|x' s' ins' v' Hs' Hc' Hp' Hm']; subst; [reflexivity|]. congruence.
  - inversion Hw as [x' s' Hs' Hc'|x' s' ins' v' Hs' Hc' Hp' Hm']; subst; [congruence|].
    assert (s' = s) as -> by congruence.
    assert (ins = ins') as <-.
    { clear Hm Hm' Hp. revert ins' Hp'. induction IH as [|a b l l' Hab Hl IHl]; intros ins' Hp'; inversion Hp'; subst; [reflexivity|].
      f_equal; [now apply Hab|]. now apply IHl. }
    congruence.
Qed.

Lemma all_some_Forall2 {A B} (f : A -> option B) l r : all_some (map f l) = Some r -> Forall2 (fun a b => f a = Some b) l r.
Proof.
  revert r; induction l as [|a l IH]; intros r; cbn; [intros [= <-]; constructor|].
  destruct (f a) eqn:E; [|discriminate]. destruct (all_some (map f l)); [|discriminate]. intros [= <-]. constructor; auto.
Qed.
Theorem value_yields fuel m dv x v : value fuel m dv x = Some v -> yields m dv x v.
Proof.
  revert x v; induction fuel as [|f IH]; intros x v; cbn [value]; [discriminate|].
  destruct (nth_error (p_syms m) x) as [s|] eqn:Es; [|discriminate].
  destruct (decided_cls (s_cls s)) eqn:Ec.
  - intros [= <-]. now apply y_dec with s.
  - destruct (all_some (map (value f m dv) (s_pred s))) as [ins|] eqn:Ei; [|discriminate].
    intros Hm. apply y_op with s ins; auto. apply all_some_Forall2 in Ei.
    eapply Forall2_imp; [|exact Ei]. cbn. intros a b H; now apply IH.
Qed.

(** Only the nodes matter. *)
Lemma yields_same m m' dv x v : p_syms m' = p_syms m -> yields m dv x v -> yields m' dv x v.
Proof.
  intros E H. induction H as [x s Hs Hc|x s ins v Hs Hc Hp IH Hm] using yields_ind'.
  - apply y_dec with s; [now rewrite E|exact Hc].
  - apply y_op with s ins; auto; [now rewrite E|]. rewrite <- Hm. f_equal. unfold shapes_of, shape_at. now rewrite E.
Qed.

(** * Derivations that avoid the nodes [B] *)
Inductive yp (B : nat -> Prop) (m : pym) (dv : nat -> list num) : nat -> list num -> Prop :=
| yp_dec x s : nth_error (p_syms m) x = Some s -> ~ B x -> decided_cls (s_cls s) = true -> yp B m dv x (dv x)
| yp_op x s ins v : nth_error (p_syms m) x = Some s -> ~ B x -> decided_cls (s_cls s) = false ->
    Forall2 (yp B m dv) (s_pred s) ins -> meaning (s_cls s) (shapes_of m (s_pred s)) ins = Some v -> yp B m dv x v.
Lemma yp_ind' B m dv (P : nat -> list num -> Prop) :
  (forall x s, nth_error (p_syms m) x = Some s -> ~ B x -> decided_cls (s_cls s) = true -> P x (dv x)) ->
  (forall x s ins v, nth_error (p_syms m) x = Some s -> ~ B x -> decided_cls (s_cls s) = false ->
     Forall2 (yp B m dv) (s_pred s) ins -> Forall2 P (s_pred s) ins ->
     meaning (s_cls s) (shapes_of m (s_pred s)) ins = Some v -> P x v) ->
  forall x v, yp B m dv x v -> P x v.
Proof.
  intros Hd Ho. fix IH 3. intros x v H. destruct H as [x s Hs Hb Hc|x s ins v Hs Hb Hc Hp Hm].
  - exact (Hd x s Hs Hb Hc).
  - apply (Ho x s ins v Hs Hb Hc Hp); [|exact Hm].
    clear Hm Hs Hc. induction Hp as [|a b l l' Hab Hl IHl]; constructor; [exact (IH a b Hab)|exact IHl].
Qed.
Lemma yp_yields B m dv x v : yp B m dv x v -> yields m dv x v.
Proof.
  intros H. induction H as [x s Hs Hb Hc|x s ins v Hs Hb Hc Hp IH Hm] using yp_ind'; [now apply y_dec with s|].
  now apply y_op with s ins.
Qed.

(** Building on: nodes outside [B] stay as they are, and all keep their shape. *)
Record keeps (B : nat -> Prop) (m m' : pym) : Prop := {
  kp_same : forall x s, nth_error (p_syms m) x = Some s -> ~ B x -> nth_error (p_syms m') x = Some s;
  kp_shape : forall x s, nth_error (p_syms m) x = Some s -> exists s', nth_error (p_syms m') x = Some s' /\ s_shape s' = s_shape s }.
Lemma keeps_refl B m : keeps B m m.
Proof. split; eauto. Qed.
Lemma keeps_trans B m1 m2 m3 : keeps B m1 m2 -> keeps B m2 m3 -> keeps B m1 m3.
Proof.
  intros [A1 A2] [B1 B2]. split; [auto|]. intros x s H. destruct (A2 x s H) as (s' & H' & E). destruct (B2 x s' H') as (s'' & H'' & E').
  exists s''. split; [exact H''|congruence].
Qed.
Lemma shape_at_keeps B m m' x s : keeps B m m' -> nth_error (p_syms m) x = Some s -> shape_at m' x = shape_at m x.
Proof. intros [_ K] H. unfold shape_at. destruct (K x s H) as (s' & -> & E). now rewrite H. Qed.
Lemma yp_node B m dv x v : yp B m dv x v -> exists s, nth_error (p_syms m) x = Some s.
Proof. intros H; destruct H as [x s H _ _|x s ins v H _ _ _ _]; eauto. Qed.
Lemma yp_keeps B m m' dv x v : keeps B m m' -> yp B m dv x v -> yp B m' dv x v.
Proof.
  intros K H. induction H as [x s Hs Hb Hc|x s ins v Hs Hb Hc Hp IH Hm] using yp_ind'.
  - apply yp_dec with s; auto. now apply (kp_same K).
  - apply yp_op with s ins; auto; [now apply (kp_same K)|].
    rewrite <- Hm. f_equal. unfold shapes_of. apply map_ext_in. intros a Ha.
    apply In_nth_error in Ha. destruct Ha as [k Hk].
    assert (exists s', nth_error (p_syms m) a = Some s') as [s' Hs'].
    { clear - Hp Hk. revert k Hk. induction Hp as [|b c l l' Hbc Hl IHl]; intros [|k]; cbn; try discriminate.
      - intros [= ->]. now apply yp_node in Hbc.
      - apply IHl. }
    now apply (shape_at_keeps a K Hs').
Qed.

(** * What is known about a symbol: its class, shape and value *)
Definition fact B m dv x c sh ct v : Prop := (exists ps, nth_error (p_syms m) x = Some (Sym c ps sh ct)) /\ ~ B x /\ yp B m dv x v.
Lemma fact_keeps B m m' dv x c sh ct v : keeps B m m' -> fact B m dv x c sh ct v -> fact B m' dv x c sh ct v.
Proof. intros K [[ps H] [Hb Hy]]. split; [exists ps; now apply (kp_same K)|split; [exact Hb|now apply (yp_keeps K)]]. Qed.
Lemma fact_yields B m dv x c sh ct v : fact B m dv x c sh ct v -> yields m dv x v.
Proof. intros [_ [_ H]]. now apply yp_yields in H. Qed.
Lemma fact_shape B m dv x c sh ct v : fact B m dv x c sh ct v -> shape_at m x = sh.
Proof. intros [[ps H] _]. unfold shape_at. now rewrite H. Qed.

Definition runs {A} (g : py A) (m : pym) (Q : A -> pym -> Prop) : Prop := exists a m', g m = Ok (a, m') /\ Q a m'.
Lemma runs_bind {A C} (g : py A) (f : A -> py C) m Q : runs g m (fun a m' => runs (f a) m' Q) -> runs (bind g f) m Q.
Proof. intros (a & m' & H & b & m'' & H' & HQ). exists b, m''. split; [|exact HQ]. unfold bind. rewrite H. exact H'. Qed.
Lemma runs_ret {A} (a : A) m (Q : A -> pym -> Prop) : Q a m -> runs (ret a) m Q.
Proof. intros H. now exists a, m. Qed.
Lemma runs_lift {A} (r : res A) a m (Q : A -> pym -> Prop) : r = Ok a -> Q a m -> runs (lift r) m Q.
Proof. intros -> H. now exists a, m. Qed.
Lemma runs_mono {A} (g : py A) m (Q Q' : A -> pym -> Prop) : (forall a m', Q a m' -> Q' a m') -> runs g m Q -> runs g m Q'.
Proof. intros H (a & m' & E & HQ). exists a, m'. auto. Qed.
Lemma runs_look x s m (Q : sym -> pym -> Prop) : nth_error (p_syms m) x = Some s -> Q s m -> runs (look x) m Q.
Proof. intros H HQ. exists s, m. unfold look. now rewrite H. Qed.
Lemma runs_unless (c : bool) m (Q : unit -> pym -> Prop) : c = false -> Q tt m -> runs (if c then raise else ret tt) m Q.
Proof. intros -> H. now apply runs_ret. Qed.

Lemma keeps_app B m l o c : keeps B m (Pym (p_syms m ++ l) o c).
Proof.
  split; cbn; intros x s H.
  - intros _. rewrite nth_error_app1; [exact H|]. apply nth_error_Some. congruence.
  - exists s. rewrite nth_error_app1; [auto|]. apply nth_error_Some. congruence.
Qed.
(** A loop with an invariant. *)
Lemma runs_pfor {A C} (l : list A) (f : C -> A -> py C) b m (I : list A -> C -> pym -> Prop) (Q : C -> pym -> Prop) :
  I [] b m ->
  (forall done x todo b m, l = done ++ x :: todo -> I done b m -> runs (f b x) m (I (done ++ [x]))) ->
  (forall b m, I l b m -> Q b m) ->
  runs (pfor l f b) m Q.
Proof.
  intros H0 Hs HQ.
  assert (G : forall todo done b m, l = done ++ todo -> I done b m -> runs (pfor todo f b) m (I l)).
  { induction todo as [|x todo IH]; intros done b' m' E Hi; cbn [pfor].
    - apply runs_ret. rewrite app_nil_r in E. now subst.
    - apply runs_bind. eapply runs_mono; [|eapply Hs; eauto]. cbn. intros a m1 H1. apply IH with (done ++ [x]); [|exact H1].
      now rewrite <- app_assoc. }
  eapply runs_mono; [|apply (G l [] b m); auto]. auto.
Qed.

(** Sizes below 2^31. *)
Lemma to_int_small z : (0 <= z < 2147483648)%Z -> to_int z = z.
Proof. intros H. unfold to_int. rewrite Z.mod_small; [|lia]. destruct (Z.ltb_spec z 2147483648); lia. Qed.
Lemma size1 n : (0 <= n < 2147483648)%Z -> shape_to_size [n] = n.
Proof. intros H. unfold shape_to_size. cbn [fold_left]. destruct (Z.ltb_spec n 0); [lia|]. rewrite Z.mul_1_l. now apply to_int_small. Qed.
Lemma size2 n k : (0 <= n)%Z -> (0 <= n * k < 2147483648)%Z -> shape_to_size [n; k] = (n * k)%Z.
Proof. intros H H2. unfold shape_to_size. cbn [fold_left]. destruct (Z.ltb_spec n 0); [lia|]. rewrite Z.mul_1_l. now apply to_int_small. Qed.

(** * The operations *)
Section Ops.
Variable B : nat -> Prop.
Variable dv : nat -> list num.
Notation fct := (fun m => fact B m dv).

(** Numbers of nodes yet to come. *)
Definition open_ (m : pym) : Prop := forall x, length (p_syms m) <= x -> ~ B x.
Lemma open_keeps m m' : length (p_syms m) <= length (p_syms m') -> open_ m -> open_ m'.
Proof. intros H Ho x Hx. apply Ho. lia. Qed.
(** One step: things are kept, and nodes to come are outside [B]. *)
Definition steps (m m' : pym) : Prop := keeps B m m' /\ p_obj m' = p_obj m /\ p_cons m' = p_cons m /\ open_ m'.

Lemma runs_emit c ps sh ct ins v m (Q : nat -> pym -> Prop) :
  open_ m -> decided_cls c = false -> Forall2 (yp B m dv) ps ins -> meaning c (shapes_of m ps) ins = Some v ->
  (forall x m', steps m m' -> fact B m' dv x c sh ct v -> Q x m') -> runs (emit c ps sh ct) m Q.
Proof.
  intros Ho Hc Hp Hm HQ. unfold runs, emit. eexists _, _. split; [reflexivity|].
  set (m' := Pym _ _ _). assert (K : keeps B m m') by apply keeps_app.
  assert (Hn : nth_error (p_syms m') (length (p_syms m)) = Some (Sym c ps sh ct)).
  { cbn. rewrite nth_error_app2; [|lia]. now rewrite Nat.sub_diag. }
  assert (Hb : ~ B (length (p_syms m))) by (apply Ho; lia).
  apply HQ.
  - split; [exact K|]. repeat split; try reflexivity. apply open_keeps with m; [cbn; rewrite app_length; lia|exact Ho].
  - split; [now exists ps|]. split; [exact Hb|]. apply yp_op with (Sym c ps sh ct) ins; auto; cbn.
    + eapply Forall2_imp; [|exact Hp]. intros a b; now apply yp_keeps.
    + rewrite <- Hm. f_equal. unfold shapes_of. apply map_ext_in. intros a Ha. apply In_nth_error in Ha. destruct Ha as [k Hk].
      assert (exists s', nth_error (p_syms m) a = Some s') as [s' Hs'].
      { clear - Hp Hk. revert k Hk. induction Hp as [|b e l l' Hbc Hl IHl]; intros [|k]; cbn; try discriminate.
        - intros [= ->]. now apply yp_node in Hbc.
        - apply IHl. }
      now apply (shape_at_keeps a K Hs').
Qed.
Lemma runs_emit_dec c ps sh ct m (Q : nat -> pym -> Prop) :
  open_ m -> decided_cls c = true ->
  (forall x m', x = length (p_syms m) -> length (p_syms m') = S (length (p_syms m)) -> steps m m' -> fact B m' dv x c sh ct (dv x) -> Q x m') ->
  runs (emit c ps sh ct) m Q.
Proof.
  intros Ho Hc HQ. unfold runs, emit. eexists _, _. split; [reflexivity|].
  set (m' := Pym _ _ _). assert (K : keeps B m m') by apply keeps_app.
  assert (Hn : nth_error (p_syms m') (length (p_syms m)) = Some (Sym c ps sh ct)).
  { cbn. rewrite nth_error_app2; [|lia]. now rewrite Nat.sub_diag. }
  assert (Hb : ~ B (length (p_syms m))) by (apply Ho; lia).
  apply HQ; [reflexivity|cbn; rewrite app_length; cbn; lia| |].
  - split; [exact K|]. repeat split; try reflexivity. apply open_keeps with m; [cbn; rewrite app_length; lia|exact Ho].
  - split; [now exists ps|]. split; [exact Hb|]. now apply yp_dec with (Sym c ps sh ct).
Qed.

Lemma steps_open m m' : steps m m' -> open_ m'.
Proof. now intros (_ & _ & _ & H). Qed.
Lemma steps_keeps m m' : steps m m' -> keeps B m m'.
Proof. now intros (H & _). Qed.
Lemma steps_refl m : open_ m -> steps m m.
Proof. intros H. split; [apply keeps_refl|]. auto. Qed.
Lemma steps_trans m1 m2 m3 : steps m1 m2 -> steps m2 m3 -> steps m1 m3.
Proof.
  intros (K1 & O1 & C1 & _) (K2 & O2 & C2 & P). split; [exact (keeps_trans K1 K2)|]. split; [congruence|]. split; [congruence|exact P].
Qed.
Lemma fact_steps m m' x c sh ct v : steps m m' -> fact B m dv x c sh ct v -> fact B m' dv x c sh ct v.
Proof. intros (K & _). now apply fact_keeps. Qed.

Lemma runs_constant sh v m (Q : nat -> pym -> Prop) :
  open_ m ->
  (forall x m', x = length (p_syms m) -> length (p_syms m') = S (length (p_syms m)) -> steps m m' -> fact B m' dv x (KConst v) sh true v -> Q x m') ->
  runs (constant sh v) m Q.
Proof.
  intros Ho HQ. unfold constant.
  assert (G : runs (emit (KConst v) [] sh true) m (fun x m' => steps m m' /\ fact B m' dv x (KConst v) sh true v))
    by (apply runs_emit with (ins := []) (v := v); auto).
  destruct G as (x & m' & E & Hs & F). exists x, m'. split; [exact E|]. unfold emit in E. injection E as <- <-.
  apply HQ; auto. cbn. rewrite app_length. cbn. lia.
Qed.

Lemma runs_basic x c sh ct v ix ci p b w m (Q : nat -> pym -> Prop) :
  open_ m -> fact B m dv x c sh ct v -> rmap to_sidx ix = Ok ci ->
  basic_new (shape_to_size sh) sh (shape_to_strides sh) ct ci = Ok (p, b) -> view_fun sh ci [v] = Some w ->
  (forall y m', steps m m' -> fact B m' dv y (KBasic ci) (p_shape p) b w -> Q y m') ->
  runs (basic x ix) m Q.
Proof.
  intros Ho F Hi Hb Hv HQ. unfold basic. apply runs_bind. pose proof (fact_shape F) as Hsh. destruct F as [[ps Hx] [Hbx Hy]].
  eapply runs_look; [exact Hx|]. cbn [s_shape s_contig].
  apply runs_bind. eapply runs_lift; [exact Hi|]. apply runs_bind. eapply runs_lift; [exact Hb|]. cbn [fst snd].
  apply runs_emit with (ins := [v]) (v := w); auto.
  unfold shapes_of. cbn [map]. rewrite Hsh. exact Hv.
Qed.
Lemma runs_looks xs m (Q : list sym -> pym -> Prop) :
  Forall (fun x => exists s, nth_error (p_syms m) x = Some s) xs ->
  (forall ss, Forall2 (fun x s => nth_error (p_syms m) x = Some s) xs ss -> Q ss m) -> runs (looks xs) m Q.
Proof.
  revert Q; induction xs as [|x xs IH]; intros Q Hx HQ; cbn [looks].
  - apply runs_ret. apply HQ. constructor.
  - inversion Hx as [|x' l [s Hs] Hl]; subst. apply runs_bind. eapply runs_look; [exact Hs|]. apply runs_bind. apply IH; [exact Hl|].
    intros ss Hss. apply runs_ret. apply HQ. now constructor.
Qed.
Lemma yp_nodes m xs ws : Forall2 (yp B m dv) xs ws -> Forall (fun x => exists s, nth_error (p_syms m) x = Some s) xs.
Proof. induction 1 as [|a b l l' H _ IH]; constructor; [now apply yp_node in H|exact IH]. Qed.
Lemma runs_advanced x c sh ct v ix ai r ws w m (Q : nat -> pym -> Prop) :
  open_ m -> fact B m dv x c sh ct v -> Forall2 (yp B m dv) (arrays ix) ws ->
  rmap (aix (shape_at m)) ix = Ok ai -> adv_new true sh (Some 0%Z) ai = Ok r ->
  meaning (KAdv (ad_spec r)) (sh :: shapes_of m (arrays ix)) (v :: ws) = Some w ->
  (forall y m', steps m m' -> fact B m' dv y (KAdv (ad_spec r)) (ad_oshape r) true w -> Q y m') ->
  runs (advanced x ix) m Q.
Proof.
  intros Ho F Hws Hi Hr Hm HQ. unfold advanced. apply runs_bind. pose proof (fact_shape F) as Hsh. destruct F as [[ps Hx] [Hbx Hy]].
  eapply runs_look; [exact Hx|]. cbn [s_shape]. apply runs_bind. apply runs_looks; [exact (yp_nodes Hws)|]. intros _ _.
  match goal with |- runs (fun m => ?g m) _ _ => idtac end. unfold runs. cbv beta.
  match goal with |- exists a m', bind ?g ?f m = _ /\ _ => change (runs (bind g f) m Q) end.
  apply runs_bind. eapply runs_lift; [exact Hi|]. apply runs_bind. eapply runs_lift; [exact Hr|].
  apply runs_emit with (ins := v :: ws) (v := w); auto.
  unfold shapes_of. cbn [map]. rewrite Hsh. exact Hm.
Qed.

Definition not_adv (c : cls) : Prop := match c with KAdv _ => False | _ => True end.
Lemma runs_getitem x c ps sh ct ix m (Q : nat -> pym -> Prop) :
  nth_error (p_syms m) x = Some (Sym c ps sh ct) -> not_adv c -> runs (array_getitem x ix) m Q -> runs (getitem x ix) m Q.
Proof.
  intros Hx Hc H. unfold getitem. apply runs_bind. eapply runs_look; [exact Hx|]. cbn [s_cls s_pred]. destruct c; try exact H. contradiction.
Qed.
Lemma runs_array_getitem_basic x c sh ct v ix m (Q : nat -> pym -> Prop) :
  fact B m dv x c sh ct v ->
  forallb (fun i => negb (is_sym i)) (ix ++ repeat full (length sh - length ix)) = true ->
  runs (basic x (ix ++ repeat full (length sh - length ix))) m Q -> runs (array_getitem x ix) m Q.
Proof.
  intros [[ps Hx] _] Hs H. unfold array_getitem. apply runs_bind. eapply runs_look; [exact Hx|]. cbn [s_shape]. rewrite Hs. exact H.
Qed.
Lemma runs_array_getitem_adv x c sh ct v ix m (Q : nat -> pym -> Prop) :
  fact B m dv x c sh ct v ->
  let ix' := ix ++ repeat full (length sh - length ix) in
  forallb (fun i => negb (is_sym i)) ix' = false -> forallb (fun i => is_sym i || is_full i) ix' = true ->
  runs (advanced x ix') m Q -> runs (array_getitem x ix) m Q.
Proof.
  intros [[ps Hx] _] ix' Hs Ha H. unfold array_getitem. apply runs_bind. eapply runs_look; [exact Hx|]. cbn [s_shape]. fold ix'.
  rewrite Hs, Ha. exact H.
Qed.
Lemma runs_array_getitem_both x c sh ct v ix m (Q : nat -> pym -> Prop) :
  fact B m dv x c sh ct v ->
  let ix' := ix ++ repeat full (length sh - length ix) in
  forallb (fun i => negb (is_sym i)) ix' = false -> forallb (fun i => is_sym i || is_full i) ix' = false ->
  runs (basic x (map split_basic ix')) m (fun y m' => runs (advanced y (split_adv ix')) m' Q) -> runs (array_getitem x ix) m Q.
Proof.
  intros [[ps Hx] _] ix' Hs Ha H. unfold array_getitem. apply runs_bind. eapply runs_look; [exact Hx|]. cbn [s_shape]. fold ix'.
  rewrite Hs, Ha. apply runs_bind. exact H.
Qed.

Lemma runs_binop o x y c1 sh1 ct1 v1 c2 sh2 ct2 v2 sh w m (Q : nat -> pym -> Prop) :
  open_ m -> fact B m dv x c1 sh1 ct1 v1 -> fact B m dv y c2 sh2 ct2 v2 -> BinaryModel.bin_new sh1 sh2 = Ok sh ->
  meaning (KBin o) [sh1; sh2] [v1; v2] = Some w ->
  (forall z m', steps m m' -> fact B m' dv z (KBin o) sh true w -> Q z m') -> runs (binop o x y) m Q.
Proof.
  intros Ho F1 F2 Hn Hm HQ. unfold binop. pose proof (fact_shape F1) as H1. pose proof (fact_shape F2) as H2.
  destruct F1 as [[p1 E1] [_ Y1]]. destruct F2 as [[p2 E2] [_ Y2]].
  apply runs_bind. eapply runs_look; [exact E1|]. apply runs_bind. eapply runs_look; [exact E2|]. cbn [s_shape].
  apply runs_bind. eapply runs_lift; [exact Hn|].
  apply runs_emit with (ins := [v1; v2]) (v := w); auto.
  unfold shapes_of. cbn [map]. rewrite H1, H2. exact Hm.
Qed.
Lemma runs_red o x c sh ct v i w m (Q : nat -> pym -> Prop) :
  open_ m -> fact B m dv x c sh ct v -> red_new o None sh = Ok i -> red_fun o (identity_of o) [v] = Some w ->
  (forall z m', steps m m' -> fact B m' dv z (KRed o) [] true w -> Q z m') -> runs (red o x) m Q.
Proof.
  intros Ho F Hn Hm HQ. unfold red. destruct F as [[p E] [_ Y]].
  apply runs_bind. eapply runs_look; [exact E|]. cbn [s_shape]. apply runs_bind. eapply runs_lift; [exact Hn|].
  apply runs_emit with (ins := [v]) (v := w); auto.
Qed.
Lemma shapes_facts m xs shs : Forall2 (fun x sh => exists c ct v, fact B m dv x c sh ct v) xs shs -> shapes_of m xs = shs.
Proof.
  unfold shapes_of. induction 1 as [|x sh l l' (c & ct & v & F) _ IH]; [reflexivity|]. cbn. now rewrite (fact_shape F), IH.
Qed.
Lemma runs_nary o xs shs vs sh w m (Q : nat -> pym -> Prop) :
  open_ m -> Forall2 (yp B m dv) xs vs -> map (shape_at m) xs = shs -> nary_new shs = Ok sh ->
  nary_fun (nop_func o) (length shs) vs = Some w ->
  (forall z m', steps m m' -> fact B m' dv z (KNary o) sh true w -> Q z m') -> runs (nary o xs) m Q.
Proof.
  intros Ho Hv Hs Hn Hm HQ. unfold nary. apply runs_bind. apply runs_looks; [exact (yp_nodes Hv)|].
  intros ss Hss. assert (map s_shape ss = shs) as ->.
  { rewrite <- Hs. clear - Hss. induction Hss as [|x s l l' H _ IH]; [reflexivity|]. cbn. unfold shape_at at 1. now rewrite H, IH. }
  apply runs_bind. eapply runs_lift; [exact Hn|]. apply runs_emit with (ins := vs) (v := w); auto.
  cbn [meaning]. unfold shapes_of. rewrite Hs. exact Hm.
Qed.
Lemma runs_where c x y cc sc ctc vc cx sx ctx vx cy sy cty vy sh w m (Q : nat -> pym -> Prop) :
  open_ m -> fact B m dv c cc sc ctc vc -> fact B m dv x cx sx ctx vx -> fact B m dv y cy sy cty vy ->
  where_new sc sx sy = Ok sh -> where_fun q2b sc [vc; vx; vy] = Some w ->
  (forall z m', steps m m' -> fact B m' dv z KWhere sh true w -> Q z m') -> runs (where_ c x y) m Q.
Proof.
  intros Ho F0 F1 F2 Hn Hm HQ. unfold where_. pose proof (fact_shape F0) as H0.
  destruct F0 as [[p0 E0] [_ Y0]]. destruct F1 as [[p1 E1] [_ Y1]]. destruct F2 as [[p2 E2] [_ Y2]].
  apply runs_bind. eapply runs_look; [exact E0|]. apply runs_bind. eapply runs_look; [exact E1|]. apply runs_bind. eapply runs_look; [exact E2|]. cbn [s_shape].
  apply runs_bind. eapply runs_lift; [exact Hn|].
  apply runs_emit with (ins := [vc; vx; vy]) (v := w); auto.
  unfold shapes_of. cbn [map meaning]. rewrite H0. exact Hm.
Qed.
Lemma runs_permutation x o v1 n ct1 c2 ct2 v2 w m (Q : nat -> pym -> Prop) :
  open_ m -> fact B m dv x (KConst v1) [n; n] ct1 v1 -> fact B m dv o c2 [n] ct2 v2 -> (0 <= n)%Z -> (n * n < 2147483648)%Z ->
  perm_fun (Z.to_nat n) 2 [v1; v2] = Some w ->
  (forall z m', steps m m' -> fact B m' dv z KPerm [n; n] true w -> Q z m') -> runs (permutation x o) m Q.
Proof.
  intros Ho F1 F2 Hn Hn2 Hm HQ. unfold permutation. pose proof (fact_shape F1) as H1. pose proof (fact_shape F2) as H2.
  destruct F1 as [[p1 E1] [_ Y1]]. destruct F2 as [[p2 E2] [_ Y2]].
  apply runs_bind. eapply runs_look; [exact E1|]. apply runs_bind. eapply runs_look; [exact E2|]. cbn [s_shape s_cls].
  apply runs_bind. apply runs_lift with (a := tt).
  { unfold perm_new. cbn [negb combine forallb fst snd length]. rewrite Z.eqb_refl. cbn [andb negb].
    assert (Hd : dynamic [n] = false) by (unfold dynamic; cbn; destruct (Z.ltb_spec n 0); [lia|reflexivity]). rewrite Hd. cbn [Nat.eqb negb].
    assert (Hz : shape_to_size [n] = n) by (apply size1; assert (n <= n * n)%Z by nia; lia).
    rewrite Hz, Z.eqb_refl. cbn [negb].
    assert (Hz2 : (0 <= shape_to_size [n; n])%Z) by (rewrite size2; nia).
    destruct (qltb_spec (zq (shape_to_size [n; n])) (zq (-1))) as [Hl|]; [|reflexivity]. apply (proj1 (zq_lt _ _)) in Hl. lia. }
  apply runs_emit with (ins := [v1; v2]) (v := w); auto.
  unfold shapes_of. cbn [map meaning length hd]. rewrite H1. exact Hm.
Qed.
Lemma runs_minimize x c sh ct v m (Q : unit -> pym -> Prop) :
  fact B m dv x c sh ct v -> shape_to_size sh = 1%Z ->
  Q tt (Pym (p_syms m) (Some x) (p_cons m)) -> runs (minimize x) m Q.
Proof.
  intros [[ps E] _] Hs HQ. unfold minimize. apply runs_bind. eapply runs_look; [exact E|]. cbn [s_shape]. rewrite Hs. cbn.
  eexists _, _. split; [reflexivity|exact HQ].
Qed.
Lemma runs_constraint x c sh ct v m (Q : unit -> pym -> Prop) :
  fact B m dv x c sh ct v -> shape_to_size sh = 1%Z ->
  Q tt (Pym (p_syms m) (p_obj m) (p_cons m ++ [x])) -> runs (add_constraint x) m Q.
Proof.
  intros [[ps E] _] Hs HQ. unfold add_constraint. apply runs_bind. eapply runs_look; [exact E|]. cbn [s_shape]. rewrite Hs. cbn.
  eexists _, _. split; [reflexivity|exact HQ].
Qed.
Lemma keeps_syms m o c : keeps B m (Pym (p_syms m) o c).
Proof. split; cbn; eauto. Qed.
Lemma open_syms m o c : open_ m -> open_ (Pym (p_syms m) o c).
Proof. auto. Qed.

(** [+=]: a new node, or one more predecessor for an existing one. *)
Lemma runs_iadd_new x y c1 sh ct1 v1 c2 ct2 v2 w m (Q : nat -> pym -> Prop) :
  open_ m -> fact B m dv x c1 sh ct1 v1 -> fact B m dv y c2 sh ct2 v2 -> same_nop NAdd c1 = false -> nary_new [sh; sh] = Ok sh ->
  nary_fun Qcplus 2 [v1; v2] = Some w ->
  (forall z m', steps m m' -> fact B m' dv z (KNary NAdd) sh true w -> Q z m') -> runs (iadd x y) m Q.
Proof.
  intros Ho F1 F2 Hc Hn Hm HQ. unfold iadd, inplace.
  pose proof (fact_shape F1) as H1. pose proof (fact_shape F2) as H2.
  pose proof F1 as [[p1 E1] [_ Y1]]. pose proof F2 as [[p2 E2] [_ Y2]].
  apply runs_bind. eapply runs_look; [exact E1|]. cbn [s_cls]. rewrite Hc.
  apply runs_nary with (shs := [sh; sh]) (vs := [v1; v2]) (sh := sh) (w := w); auto. cbn [map]. now rewrite H1, H2.
Qed.
Lemma runs_iadd_same x y ps sh c2 ct2 ct v2 m (Q : nat -> pym -> Prop) :
  open_ m -> B x -> nth_error (p_syms m) x = Some (Sym (KNary NAdd) ps sh ct) -> fact B m dv y c2 sh ct2 v2 -> dynamic sh = false ->
  (forall m', steps m m' -> length (p_syms m') = length (p_syms m) ->
     nth_error (p_syms m') x = Some (Sym (KNary NAdd) (ps ++ [y]) sh ct) -> Q x m') -> runs (iadd x y) m Q.
Proof.
  intros Ho Hbx E1 F2 Hd HQ. unfold iadd, inplace. destruct F2 as [[p2 E2] [_ Y2]].
  apply runs_bind. eapply runs_look; [exact E1|]. cbn [s_cls same_nop]. apply runs_bind. unfold add_node.
  apply runs_bind. eapply runs_look; [exact E1|]. apply runs_bind. eapply runs_look; [exact E2|]. cbn [s_shape s_cls s_pred s_contig].
  rewrite Hd. assert (Hz : zlist_eqb sh sh = true) by (unfold zlist_eqb; destruct (list_eq_dec Z.eq_dec sh sh); congruence).
  rewrite Hz. cbn [negb]. eexists _, _. split; [reflexivity|]. apply runs_ret.
  assert (Hl : x < length (p_syms m)) by (apply nth_error_Some; congruence).
  apply HQ; cbn [p_syms p_obj p_cons].
  - split; [|split; [reflexivity|split; [reflexivity|]]].
    + split; cbn [p_syms].
      * intros z s Hz' Hb. rewrite nth_error_lset_neq; [exact Hz'|]. intros ->. contradiction.
      * intros z s Hz'. destruct (Nat.eq_dec x z) as [<-|Hne].
        -- eexists. split; [apply nth_error_lset_eq; exact Hl|]. cbn. rewrite E1 in Hz'. injection Hz' as <-. reflexivity.
        -- exists s. rewrite nth_error_lset_neq; auto.
    + intros z Hz'. cbn in Hz'. rewrite lset_length in Hz'. now apply Ho.
  - apply lset_length.
  - apply nth_error_lset_eq; exact Hl.
Qed.
End Ops.
