From Verif Require Import Base SliceModel ArithModel ArithSpec ArithProofs SizeModel SizeSpec Num.
Local Open Scope Z_scope.

Notation f1 := (Frac 1 1).
Notation f0 := (Frac 0 1).

Lemma reduce_1 n f : reduce (Frac n 1) = Ok f -> f = Frac n 1.
Proof.
  unfold reduce. cbn [numerator denominator]. destruct (schk (Z.abs n)) as [y| |] eqn:E; cbn [rbind]; try discriminate.
  rewrite (schk_ok (Z.abs 1)) by (unfold SMIN, SMAX; lia). cbn [rbind]. change (Z.abs 1) with 1. rewrite Z.gcd_1_r.
  change (1 =? 1) with true. cbn [negb denominator]. change (1 <? 0) with false. cbv iota. congruence.
Qed.
Lemma mul_1 n f : fr_mul_int f1 n = Ok f -> f = Frac n 1.
Proof.
  unfold fr_mul_int. cbn [numerator denominator]. destruct (schk (1 * n)) as [y| |] eqn:E; cbn [rbind]; try discriminate.
  apply schk_inv in E as [-> _]. intros H. apply reduce_1 in H. subst. f_equal. lia.
Qed.
Lemma mul_0 n f : fr_mul_int f0 n = Ok f -> f = f0.
Proof.
  unfold fr_mul_int. cbn [numerator denominator]. destruct (schk (0 * n)) as [y| |] eqn:E; cbn [rbind]; try discriminate.
  apply schk_inv in E as [-> _]. intros H. apply reduce_1 in H. subst. f_equal.
Qed.
Lemma ssize_1 n : fr_ssize (Frac n 1) = n.
Proof. unfold fr_ssize. cbn [numerator denominator]. apply Z.quot_1_r. Qed.
Lemma one_f1 : fr_eq_int f1 1 = true. Proof. reflexivity. Qed.
Lemma one_f0 : fr_eq_int f0 1 = false. Proof. reflexivity. Qed.
Lemma mul_11 : fr_mul f1 f1 = Ok f1. Proof. reflexivity. Qed.
Lemma mul_10 : fr_mul f1 f0 = Ok f0. Proof. reflexivity. Qed.

Lemma rbind_inv {A B} (r : res A) (f : A -> res B) b : rbind r f = Ok b -> exists a, r = Ok a /\ f a = Ok b.
Proof. destruct r; cbn [rbind]; try discriminate. eauto. Qed.
Ltac oks := repeat match goal with H : (_ = Ok _) |- _ => progress cbn beta iota in H end.

(** * Slices of step one *)
Lemma fit1 a b n f k : 0 <= n <= SMAX -> fit (Slice a b 1) n = Ok f -> slice_size f = Ok k ->
  k = Z.max 0 (fit_bound b 1 n - fit_bound a 1 n).
Proof.
  intros Hn F S. unfold fit in F. cbn [sstart sstop sstep] in F. unfold mk_slice in F.
  cbn [SliceModel.value_or] in F. change (1 =? 0) with false in F. cbv iota in F. injection F as <-.
  assert (B : forall x, 0 <= fit_bound x 1 n <= n).
  { intros x. unfold fit_bound. change (1 <? 0) with false. cbv iota zeta.
    destruct (Z.ltb_spec x 0); [destruct (Z.ltb_spec (x + n) 0)|destruct (Z.leb_spec n x)]; lia. }
  pose proof (B a). pose proof (B b).
  unfold slice_size in S. cbn [sstart sstop sstep] in S. change (1 <? 0) with false in S. cbv iota in S.
  destruct (Z.ltb_spec (fit_bound a 1 n) (fit_bound b 1 n)); [|injection S as <-; lia].
  destruct (Z.ltb_spec 0 (fit_bound b 1 n)); [|lia]. injection S as <-.
  rewrite Z.div_1_r, Z.mod_small by (unfold UMOD, SMAX in *; lia). lia.
Qed.

Lemma slice_trim a b n f k : 0 <= n <= SMAX -> 0 <= a <= SMAX -> (b = SMAX \/ - SMAX <= b < 0) ->
  fit (Slice a b 1) n = Ok f -> slice_size f = Ok k -> k = Z.max 0 (n - a + (if b <? 0 then b else 0)).
Proof.
  intros Hn Ha Hb F S. rewrite (fit1 a b n f k Hn F S). unfold fit_bound. change (1 <? 0) with false. cbv iota zeta.
  destruct (Z.ltb_spec a 0); [lia|]. destruct (Z.ltb_spec b 0).
  - destruct (Z.ltb_spec (b + n) 0), (Z.leb_spec n a); lia.
  - destruct Hb as [-> |]; [|lia]. destruct (Z.leb_spec n SMAX); [|lia]. destruct (Z.leb_spec n a); lia.
Qed.
Lemma slice_head a b n f k : 0 <= n <= SMAX -> ((a = 0 /\ 0 < b <= SMAX) \/ (- SMAX <= a < 0 /\ b = SMAX)) ->
  fit (Slice a b 1) n = Ok f -> slice_size f = Ok k -> k = Z.min n (if a <? 0 then - a else b).
Proof.
  intros Hn Hab F S. rewrite (fit1 a b n f k Hn F S). unfold fit_bound. change (1 <? 0) with false. cbv iota zeta.
  destruct Hab as [[-> Hb]|[Ha ->]].
  - destruct (Z.ltb_spec 0 0); [lia|]. destruct (Z.ltb_spec b 0); [lia|]. destruct (Z.leb_spec n 0), (Z.leb_spec n b); lia.
  - destruct (Z.ltb_spec a 0); [|lia]. destruct (Z.ltb_spec SMAX 0); [unfold SMAX in *; lia|]. destruct (Z.leb_spec n SMAX); [|lia].
    destruct (Z.ltb_spec (a + n) 0); lia.
Qed.

Lemma info_trim p a b S : 0 <= a <= SMAX -> (b = SMAX \/ - SMAX <= b < 0) -> slice_info p (Slice a b 1) 1 1 = Ok S ->
  S = SInfo (Some p) f1 (- a + (if b <? 0 then b else 0)) None None.
Proof.
  intros Ha Hb. unfold slice_info. change (fr_div_int (fr_int 1) 1) with (Ok f1). cbn [rbind].
  change (fr_mul_int f1 1) with (Ok f1). cbn [rbind sstep sstart sstop]. change (fr_div_int f1 1) with (Ok f1). cbn [rbind].
  intros H. apply rbind_inv in H as ([o m] & H1 & H2). oks.
  assert (E1 : o = - a /\ m = None).
  { rewrite Z.gtb_ltb in H1. destruct (Z.ltb_spec 0 a).
    - apply rbind_inv in H1 as (f & H1 & E). apply mul_1 in H1. subst f. rewrite ssize_1 in E. split; congruence.
    - destruct (Z.ltb_spec a 0); [lia|]. assert (a = 0) by lia. subst a. change (- 0) with 0. split; congruence. }
  destruct E1 as [-> ->]. apply rbind_inv in H2 as ([o m] & H1' & H2).
  oks. rewrite Z.gtb_ltb in H1'. destruct (Z.ltb_spec 0 b).
  - destruct Hb as [-> |]; [|lia]. rewrite Z.eqb_refl in H1'. cbn [negb andb] in H1'. destruct (Z.ltb_spec SMAX 0); [unfold SMAX in *; lia|].
    assert (o = - a /\ m = None) as [-> ->] by (split; congruence). rewrite Z.add_0_r. congruence.
  - cbn [andb] in H1'. destruct (Z.ltb_spec b 0); [|unfold SMAX in *; lia].
    apply rbind_inv in H1' as (f & Hf & E). apply mul_1 in Hf. subst f. rewrite ssize_1 in E.
    assert (o = - a + b /\ m = None) as [-> ->] by (split; congruence). congruence.
Qed.
Lemma info_head p a b S : ((a = 0 /\ 0 < b <= SMAX) \/ (- SMAX <= a < 0 /\ b = SMAX)) -> slice_info p (Slice a b 1) 1 1 = Ok S ->
  S = SInfo (Some p) f1 0 None (if a <? 0 then Some (- a) else if b =? SMAX then None else Some b).
Proof.
  intros Hab. unfold slice_info. change (fr_div_int (fr_int 1) 1) with (Ok f1). cbn [rbind].
  change (fr_mul_int f1 1) with (Ok f1). cbn [rbind sstep sstart sstop]. change (fr_div_int f1 1) with (Ok f1). cbn [rbind].
  intros H. apply rbind_inv in H as ([o m] & H1 & H2). oks.
  rewrite Z.gtb_ltb in H1. destruct (Z.ltb_spec 0 a); [lia|].
  destruct Hab as [[-> Hb]|[Ha ->]].
  - change (0 <? 0) with false in *. cbv iota in *. assert (o = 0 /\ m = None) as [-> ->] by (split; congruence).
    rewrite Z.gtb_ltb in H2. destruct (Z.ltb_spec 0 b); [|lia]. cbn [andb] in H2. destruct (Z.eqb_spec b SMAX) as [-> |N]; cbn [negb] in H2.
    + destruct (Z.ltb_spec SMAX 0); [unfold SMAX in *; lia|]. cbn [rbind] in H2. congruence.
    + apply rbind_inv in H2 as ([o m] & H2 & H3). apply rbind_inv in H2 as (f & Hf & E). apply mul_1 in Hf. subst f. rewrite ssize_1 in E. congruence.
  - destruct (Z.ltb_spec a 0); [|lia]. change (fr_mul_int f1 (-1)) with (Ok (Frac (-1) 1)) in H1. cbn [rbind] in H1.
    apply rbind_inv in H1 as (f & Hf & E). unfold fr_mul_int in Hf. cbn [numerator denominator] in Hf.
    apply rbind_inv in Hf as (y & Hy & Hf). apply schk_inv in Hy as [-> _]. apply reduce_1 in Hf. subst f. rewrite ssize_1 in E.
    assert (o = 0 /\ m = Some (- a)) as [-> ->] by (split; [congruence|]; assert (Some (-1 * a) = m) by congruence; subst m; f_equal; lia).
    rewrite Z.gtb_ltb, Z.eqb_refl, Bool.andb_false_r in H2. destruct (Z.ltb_spec SMAX 0); [unfold SMAX in *; lia|].
    cbn [rbind] in H2. congruence.
Qed.

Section Inv.
Variable ctx : nat -> option arr.
Variable sz : nat -> Z.
Hypothesis SZ : sized ctx sz.

(** Closed form of one round when this multiplier is one. *)
Lemma subst_f1 p off mn mx q off' mn' mx' S b :
  info ctx p = Ok (SInfo (Some q) f1 off' mn' mx') ->
  subst1 ctx (SInfo (Some p) f1 off mn mx) = Ok (S, b) ->
  (p = q /\ off' = 0 /\ vor mn (- SMAX) >= vor mn' SMAX /\ vor mx SMAX <= vor mx' (- SMAX) /\ S = SInfo (Some p) f1 off mn mx) \/
  (~ (p = q /\ off' = 0 /\ vor mn (- SMAX) >= vor mn' SMAX /\ vor mx SMAX <= vor mx' (- SMAX)) /\
   let mx2 := option_map (fun x => Z.max 0 (x + off)) (match mx, mx' with Some a, Some b => Some (Z.min a b) | Some a, None => Some a | None, b => b end) in
   let mn2 := option_map (fun x => Z.max 0 (x + off)) (match mn, mn' with Some a, Some b => Some (Z.max a b) | Some a, None => Some a | None, b => b end) in
   S = match mn2, mx2 with
       | Some a, Some b => if a =? b then SInfo (Some q) f0 a mn2 mx2 else SInfo (Some q) f1 (off' + off) mn2 mx2
       | _, _ => SInfo (Some q) f1 (off' + off) mn2 mx2 end).
Proof.
  intros I. unfold subst1. cbn [si_ptr]. rewrite I. cbn [rbind si_ptr si_mult si_off si_min si_max ptr_eqb].
  rewrite one_f1, mul_11. cbn [andb rbind negb].
  destruct (Nat.eqb_spec p q) as [Epq|Npq]; cbn [andb].
  1: destruct (Z.eqb_spec off' 0) as [E0|N0]; cbn [andb].
  1: rewrite Z.geb_leb; destruct (Z.leb_spec (vor mn' SMAX) (vor mn (- SMAX))) as [E1|N1]; cbn [andb].
  1: destruct (Z.leb_spec (vor mx SMAX) (vor mx' (- SMAX))) as [E2|N2].
  1: intros H; left; repeat split; auto; [lia|congruence].
  all: intros H; right; (split; [intros (? & ? & ? & ?); try contradiction; lia|]).
  all: apply rbind_inv in H as (f & Hf & H); apply mul_1 in Hf; subst f; rewrite ssize_1 in H.
  all: destruct mx as [x|], mx' as [x'|], mn as [y|], mn' as [y'|]; unfold fr_int in *; cbn [rbind option_map] in *; congruence.
Qed.

Definition mxlow (off : Z) (mx : option Z) := option_map (fun m => Z.max 0 (m + off)) mx.

Inductive invT : sizeinfo -> Z -> Prop :=
| IT1 p off s : trimmed ctx p -> off <= 0 -> s = Z.max 0 (sz p + off) -> invT (SInfo (Some p) f1 off None None) s
| IT2 p mx off s : ctx p = Some (AOwn (Some 0) mx) -> off <= 0 -> s = Z.max 0 (sz p + off) ->
    invT (SInfo (Some p) f1 off (Some 0) (mxlow off mx)) s
| IT3 p mx : ctx p = Some (AOwn (Some 0) (Some mx)) -> invT (SInfo (Some p) f0 0 (Some 0) (Some 0)) 0.

Definition cut (mx : option Z) (x : Z) : Z := match mx with Some m => Z.min m x | None => x end.
Inductive invH : sizeinfo -> Z -> Prop :=
| IH1 p mx s : headed ctx p -> (forall m, mx = Some m -> 0 <= m) -> s = cut mx (sz p) -> invH (SInfo (Some p) f1 0 None mx) s
| IH2 p l mx' mx s : ctx p = Some (AOwn (Some l) mx') -> 0 <= l <= SMAX -> (forall m, mx = Some m -> 0 <= m) ->
    (forall h, mx' = Some h -> exists m, mx = Some m /\ m <= h) -> s = cut mx (sz p) ->
    invH (SInfo (Some p) f1 0 (Some l) mx) s
| IH3 p l mx' : ctx p = Some (AOwn (Some l) mx') -> 0 <= l <= SMAX -> (forall h, mx' = Some h -> l <= h) ->
    invH (SInfo (Some p) f0 l (Some l) (Some l)) l.

Lemma own_size p mn mx : ctx p = Some (AOwn mn mx) -> 0 <= sz p <= SMAX /\ (forall x, mn = Some x -> x <= sz p) /\ (forall x, mx = Some x -> sz p <= x).
Proof. intros H. destruct (SZ p _ H) as [A B]. auto. Qed.

(** Declarations of the members of each class. *)
Lemma info_T id S : trimmed ctx id -> info ctx id = Ok S -> invT S (sz id).
Proof.
  intros T. unfold info. destruct T as [id mx E|id E|id p E T|id p E T|id p a b E Ha Hb T]; rewrite E; cbn beta iota.
  - intros H. assert (S = si_array id (Some 0) mx) by congruence. subst S. unfold si_array, fr_int.
    destruct (own_size id _ _ E) as (A & _ & C). replace mx with (mxlow 0 mx).
    2:{ unfold mxlow. destruct mx as [m|]; cbn [option_map]; auto. specialize (C m eq_refl). f_equal. lia. }
    apply IT2; auto; lia.
  - intros H. assert (S = si_array id None None) by congruence. subst S. apply IT1; [now apply T_default|lia|].
    destruct (own_size id _ _ E). lia.
  - intros H. assert (S = si_array p None None) by congruence. subst S. apply IT1; [assumption|lia|].
    destruct (SZ id _ E) as [A B]. cbn beta iota in B. lia.
  - intros H. assert (S = si_array p None None) by congruence. subst S. apply IT1; [assumption|lia|].
    destruct (SZ id _ E) as [A B]. cbn beta iota in B. lia.
  - intros H. apply info_trim in H; auto. subst S. apply IT1; [assumption|destruct (Z.ltb_spec b 0); lia|].
    destruct (SZ id _ E) as [A B]. cbn beta iota in B. destruct B as (rows & f & n & E1 & F & N & E2).
    assert (0 <= sz p <= SMAX) by (destruct T as [? ? X|? X|? ? X|? ? X|? ? ? ? X]; exact (proj1 (SZ _ _ X))).
    rewrite Z.mul_1_r in E1, E2. subst rows. rewrite E2, (slice_trim a b (sz p) f n) by auto.
    destruct (Z.ltb_spec b 0); lia.
Qed.
Lemma info_H id S : headed ctx id -> info ctx id = Ok S -> invH S (sz id).
Proof.
  intros T. unfold info. destruct T as [id mn mx E L P|id p E T|id p E T|id p a b E Hab T]; rewrite E; cbn beta iota.
  - intros H. assert (S = si_array id mn mx) by congruence. subst S. unfold si_array, fr_int.
    destruct (own_size id _ _ E) as (A & B & C). destruct mn as [l|].
    + apply IH2 with mx; auto.
      * intros m ->. specialize (C m eq_refl). lia.
      * intros h ->. exists h. split; [reflexivity|lia].
      * destruct mx as [m|]; cbn [cut]; [specialize (C m eq_refl)|]; lia.
    + apply IH1; [now apply H_own with None mx| |].
      * intros m ->. specialize (C m eq_refl). lia.
      * destruct mx as [m|]; cbn [cut]; [specialize (C m eq_refl)|]; lia.
  - intros H. assert (S = si_array p None None) by congruence. subst S. apply IH1; [assumption|discriminate|].
    destruct (SZ id _ E) as [A B]. exact B.
  - intros H. assert (S = si_array p None None) by congruence. subst S. apply IH1; [assumption|discriminate|].
    destruct (SZ id _ E) as [A B]. cbn [cut]. lia.
  - intros H. apply info_head in H; auto. subst S. apply IH1; [assumption| |].
    + intros m. destruct (Z.ltb_spec a 0); [intros X; injection X; lia|]. destruct (Z.eqb_spec b SMAX); [discriminate|]. intros X. injection X. lia.
    + destruct (SZ id _ E) as [A B]. cbn beta iota in B. destruct B as (rows & f & n & E1 & F & N & E2).
      assert (0 <= sz p <= SMAX) by (destruct T as [? ? ? X|? ? X|? ? X|? ? ? ? X]; exact (proj1 (SZ _ _ X))).
      rewrite Z.mul_1_r in E1, E2. subst rows. rewrite E2, (slice_head a b (sz p) f n) by auto.
      destruct (Z.ltb_spec a 0); cbn [cut]; [lia|]. destruct (Z.eqb_spec b SMAX) as [-> |]; cbn [cut]; lia.
Qed.

Lemma step_T t s S b : invT t s -> subst1 ctx t = Ok (S, b) -> invT S s.
Proof.
  intros I H. destruct I as [p off s T Ho Es|p mx off s E Ho Es|p mx E].
  - assert (Sz : 0 <= sz p <= SMAX) by (destruct T as [? ? X|? X|? ? X|? ? X|? ? ? ? X]; exact (proj1 (SZ _ _ X))).
    destruct (info ctx p) as [J| |] eqn:IJ; [|unfold subst1 in H; cbn [si_ptr] in H; rewrite IJ in H; discriminate H..].
    pose proof (info_T p J T IJ) as IT. inversion IT as [q off' s' Tq Hq Eq EJ Es'|q mx off' s' Eq Hq Ess EJ Es'|q mx Eq EJ Es']; subst J.
    + destruct (subst_f1 p off None None q off' None None S b IJ H) as [(_ & _ & G & _)|(_ & ->)]; [cbn [vor] in G; unfold SMAX in G; lia|].
      cbn [option_map]. apply IT1; auto; [lia|]. lia.
    + destruct (subst_f1 p off None None q off' (Some 0) (mxlow off' mx) S b IJ H) as [(_ & _ & G & _)|(_ & ->)]; [cbn [vor] in G; unfold SMAX in G; lia|].
      destruct (own_size q _ _ Eq) as (Sq & _ & M).
      unfold mxlow. destruct mx as [m|]; cbn [option_map].
      * specialize (M m eq_refl). replace (Z.max 0 (0 + off)) with 0 by lia.
        destruct (Z.eqb_spec 0 (Z.max 0 (Z.max 0 (m + off') + off))) as [E0|N0].
        -- rewrite <- E0. replace s with 0 by lia. now apply IT3 with m.
        -- replace (Some (Z.max 0 (Z.max 0 (m + off') + off))) with (mxlow (off' + off) (Some m)) by (unfold mxlow; cbn [option_map]; f_equal; lia).
           apply IT2; auto; lia.
      * replace (Z.max 0 (0 + off)) with 0 by lia. change None with (mxlow (off' + off) None). apply IT2; auto; lia.
    + exfalso. unfold info in IJ. destruct T as [? ? X|? X|? ? X|? ? X|? ? ? ? X]; rewrite X in IJ; cbn beta iota in IJ.
      1-4: injection IJ; discriminate.
      apply info_trim in IJ; auto. injection IJ. discriminate.
  - assert (IJ : info ctx p = Ok (SInfo (Some p) f1 0 (Some 0) mx)) by (unfold info; now rewrite E).
    destruct (own_size p _ _ E) as (Sp & _ & M).
    destruct (subst_f1 p off (Some 0) (mxlow off mx) p 0 (Some 0) mx S b IJ H) as [(_ & _ & _ & _ & ->)|(N & ->)]; [now apply IT2|].
    destruct mx as [m|].
    + exfalso. apply N. unfold mxlow. cbn [vor option_map]. specialize (M m eq_refl). repeat split; lia.
    + unfold mxlow. cbn [option_map]. change (Z.max 0 0) with 0. replace (Z.max 0 (0 + off)) with 0 by lia.
      change None with (mxlow (0 + off) None). apply IT2; auto; lia.
  - unfold subst1 in H. cbn [si_ptr] in H. unfold info in H. rewrite E in H.
    cbn [rbind si_array si_ptr si_mult si_off si_min si_max ptr_eqb vor] in H. rewrite Nat.eqb_refl in H.
    change (fr_eq_int (fr_int 1) 1) with true in H. cbn [andb] in H. destruct (own_size p _ _ E) as (Sp & _ & M). specialize (M mx eq_refl).
    rewrite Z.eqb_refl in H. cbn [andb] in H. rewrite (proj2 (Z.leb_le 0 mx)) in H by lia.
    assert (S = SInfo (Some p) f0 0 (Some 0) (Some 0)) by (cbn in H; congruence). subst S. now apply IT3 with mx.
Qed.

Lemma step_H t s S b : invH t s -> subst1 ctx t = Ok (S, b) -> invH S s.
Proof.
  intros I H. destruct I as [p mx s T Hm Es|p l mx' mx s E Hl Hm Hh Es|p l mx' E Hl Hh].
  - assert (Sz : 0 <= sz p <= SMAX) by (destruct T as [? ? ? X|? ? X|? ? X|? ? ? ? X]; exact (proj1 (SZ _ _ X))).
    destruct (info ctx p) as [J| |] eqn:IJ; [|unfold subst1 in H; cbn [si_ptr] in H; rewrite IJ in H; discriminate H..].
    pose proof (info_H p J T IJ) as IT. inversion IT as [q mxq s' Tq Hq Eq EJ Es'|q l mx' mxq s' E Hl Hq Hh Eq EJ Es'|q l mx' E Hl Hh EJ Es']; subst J.
    + destruct (subst_f1 p 0 None mx q 0 None mxq S b IJ H) as [(_ & _ & G & _)|(_ & ->)]; [cbn [vor] in G; unfold SMAX in G; lia|].
      cbn [option_map]. apply IH1; auto.
      * intros m. destruct mx as [a|], mxq as [c|]; cbn [option_map]; intros X; try discriminate X; injection X; lia.
      * subst s. destruct mx as [a|], mxq as [c|]; cbn [option_map cut] in *;
          try specialize (Hm _ eq_refl); try specialize (Hq _ eq_refl); lia.
    + destruct (subst_f1 p 0 None mx q 0 (Some l) mxq S b IJ H) as [(_ & _ & G & _)|(_ & ->)]; [cbn [vor] in G; unfold SMAX in *; lia|].
      destruct (own_size q _ _ E) as (Sq & L & M). specialize (L l eq_refl).
      assert (K : forall mx2, mx2 = option_map (fun x => Z.max 0 (x + 0)) (match mx, mxq with Some a, Some b => Some (Z.min a b) | Some a, None => Some a | None, b => b end) ->
        (forall m, mx2 = Some m -> 0 <= m) /\ (forall h, mx' = Some h -> exists m, mx2 = Some m /\ m <= h) /\ s = cut mx2 (sz q)).
      { intros mx2 ->. repeat split.
        - intros m. destruct mx as [a|], mxq as [c|]; cbn [option_map]; intros X; try discriminate X; injection X; lia.
        - intros h Eh. destruct (Hh h Eh) as (c & -> & Hc). specialize (Hq c eq_refl).
          destruct mx as [a|]; cbn [option_map]; eexists; (split; [reflexivity|]); try specialize (Hm a eq_refl); lia.
        - subst s. destruct mx as [a|], mxq as [c|]; cbn [option_map cut] in *;
          try specialize (Hm _ eq_refl); try specialize (Hq _ eq_refl); lia. }
      cbv zeta. destruct (K _ eq_refl) as (K1 & K2 & K3). clear K.
      set (mx2 := option_map _ (match mx with Some _ => _ | None => _ end)) in *. clearbody mx2.
      cbn [option_map]. replace (Z.max 0 (l + 0)) with l by lia. destruct mx2 as [m2|].
      * destruct (Z.eqb_spec l m2) as [<- |N].
        -- replace s with l by (cbn [cut] in K3; lia). apply IH3 with mx'; auto.
           intros h Eh. destruct (K2 h Eh) as (m & X & ?). injection X as <-. assumption.
        -- now apply IH2 with mx'.
      * now apply IH2 with mx'.
    + exfalso. unfold info in IJ. destruct T as [? ? ? X|? ? X|? ? X|? ? ? ? X]; rewrite X in IJ; cbn beta iota in IJ.
      1-3: injection IJ; discriminate.
      apply info_head in IJ; auto. injection IJ. discriminate.
  - assert (IJ : info ctx p = Ok (SInfo (Some p) f1 0 (Some l) mx')) by (unfold info; now rewrite E).
    destruct (own_size p _ _ E) as (Sp & L & M). specialize (L l eq_refl).
    destruct (subst_f1 p 0 (Some l) mx p 0 (Some l) mx' S b IJ H) as [(_ & _ & _ & _ & ->)|(N & ->)]; [now apply IH2 with mx'|].
    destruct mx' as [h|].
    + exfalso. apply N. destruct (Hh h eq_refl) as (m & -> & ?). cbn [vor]. repeat split; lia.
    + cbn [option_map]. replace (Z.max 0 (Z.max l l + 0)) with l by lia. destruct mx as [m|]; cbn [option_map].
      * specialize (Hm m eq_refl). replace (Z.max 0 (m + 0)) with m by lia. destruct (Z.eqb_spec l m) as [<- |].
        -- replace s with l by (cbn [cut] in Es; lia). apply IH3 with None; auto. discriminate.
        -- apply IH2 with None; auto; try discriminate. intros x X. injection X as <-. assumption.
      * apply IH2 with None; auto; discriminate.
  - unfold subst1 in H. cbn [si_ptr] in H. unfold info in H. rewrite E in H.
    cbn [rbind si_array si_ptr si_mult si_off si_min si_max ptr_eqb vor] in H. rewrite Nat.eqb_refl in H.
    change (fr_eq_int (fr_int 1) 1) with true in H. rewrite Z.eqb_refl in H. cbn [andb] in H.
    rewrite Z.geb_leb, Z.leb_refl in H. cbn [andb] in H.
    destruct (Z.leb_spec l (vor mx' (- SMAX))).
    + assert (S = SInfo (Some p) f0 l (Some l) (Some l)) by congruence. subst S. now apply IH3 with mx'.
    + destruct mx' as [h|]; [cbn [vor] in *; specialize (Hh h eq_refl); lia|].
      change (fr_int 1) with f1 in H. rewrite mul_10 in H. cbn [rbind] in H. change (fr_mul_int f0 0) with (Ok f0) in H. cbn [rbind] in H.
      rewrite one_f0 in H. cbn [negb] in H. rewrite Z.max_id in H.
      destruct (fr_mul_int f0 l) as [f| |] eqn:Ef; cbn [rbind] in H; try discriminate H. apply mul_0 in Ef. subst f.
      change (fr_ssize f0) with 0 in H. rewrite Z.eqb_refl in H. replace (Z.max 0 (0 + l)) with l in H by lia.
      assert (S = SInfo (Some p) f0 l (Some l) (Some l)) by (unfold fr_int in H; congruence). subst S. apply IH3 with None; auto.
Qed.

Inductive good : sizeinfo -> Z -> Prop :=
| G_T t s : invT t s -> good t s
| G_H t s : invH t s -> good t s
| G_fixed n : good (si_fixed n) n.

Lemma good_step t s S b : good t s -> subst1 ctx t = Ok (S, b) -> good S s.
Proof.
  intros [t' s' I|t' s' I|n] H.
  - apply G_T. eapply step_T; eassumption.
  - apply G_H. eapply step_H; eassumption.
  - discriminate H.
Qed.
Lemma good_subst d : forall t s S, good t s -> substitute ctx d t = Ok S -> good S s.
Proof.
  induction d as [|d IH]; intros t s S G H; cbn [substitute] in H; [congruence|].
  apply rbind_inv in H as ([t' same] & H1 & H2). pose proof (good_step _ _ _ _ G H1) as G'.
  destruct same; [congruence|]. eapply IH; eassumption.
Qed.

Lemma ptr_subst d : forall t s S, good t s -> si_ptr t <> None -> substitute ctx d t = Ok S -> si_ptr S <> None.
Proof.
  induction d as [|d IH]; intros t s S G N H; cbn [substitute] in H; [congruence|].
  apply rbind_inv in H as ([t' b] & H1 & H2). pose proof (good_step _ _ _ _ G H1) as G'.
  assert (N' : si_ptr t' <> None).
  { destruct G as [t s T|t s T|n]; [| |now contradiction N].
    - pose proof (step_T _ _ _ _ T H1) as T'. destruct T'; discriminate.
    - pose proof (step_H _ _ _ _ T H1) as T'. destruct T'; discriminate. }
  destruct b; [congruence|]. eapply IH; eassumption.
Qed.

Lemma fval_f1 : fval f1 = 1%Qc. Proof. apply Qc_is_canon. vm_compute. reflexivity. Qed.
Lemma fval_f0 : fval f0 = 0%Qc. Proof. apply Qc_is_canon. vm_compute. reflexivity. Qed.
Lemma declares_f1 p off mn mx s :
  s = (let low := Z.max (Z.max 0 (vor mn 0)) (sz p + off) in match mx with Some m => Z.min m low | None => low end) ->
  declares sz (SInfo (Some p) f1 off mn mx) s.
Proof.
  intros E. exists p, (sz p + off). cbn [si_ptr si_mult si_off si_min si_max]. rewrite fval_f1, <- zq_plus.
  split; [reflexivity|]. split; [ring|]. exact E.
Qed.
Lemma declares_f0 p off mn mx s :
  s = (let low := Z.max (Z.max 0 (vor mn 0)) off in match mx with Some m => Z.min m low | None => low end) ->
  declares sz (SInfo (Some p) f0 off mn mx) s.
Proof.
  intros E. exists p, off. cbn [si_ptr si_mult si_off si_min si_max]. rewrite fval_f0.
  split; [reflexivity|]. split; [ring|]. exact E.
Qed.

Lemma trimmed_own p : trimmed ctx p -> 0 <= sz p <= SMAX.
Proof. intros T. destruct T as [? ? X|? X|? ? X|? ? X|? ? ? ? X]; exact (proj1 (SZ _ _ X)). Qed.
Lemma headed_own p : headed ctx p -> 0 <= sz p <= SMAX.
Proof. intros T. destruct T as [? ? ? X|? ? X|? ? X|? ? ? ? X]; exact (proj1 (SZ _ _ X)). Qed.

Lemma good_declares t s : good t s -> si_ptr t <> None -> declares sz t s.
Proof.
  intros [t' s' I|t' s' I|n] N; [| |now contradiction N].
  - destruct I as [p off s0 T Ho Es|p mx off s0 E Ho Es|p mx E].
    + apply declares_f1. cbn [vor]. lia.
    + apply declares_f1. cbn [vor]. destruct (own_size p _ _ E) as (Sp & _ & M). destruct mx as [m|]; cbn [mxlow option_map].
      * specialize (M m eq_refl). lia.
      * lia.
    + apply declares_f0. cbn [vor]. lia.
  - destruct I as [p mx s0 T Hm Es|p l mx' mx s0 E Hl Hm Hh Es|p l mx' E Hl Hh].
    + apply headed_own in T. apply declares_f1. cbn [vor]. destruct mx; cbn [cut] in *; lia.
    + apply declares_f1. cbn [vor]. destruct (own_size p _ _ E) as (Sp & L & M). specialize (L l eq_refl). destruct mx; cbn [cut] in *; lia.
    + apply declares_f0. cbn [vor]. lia.
Qed.

Lemma good_mult t s : good t s -> (si_mult t = f1 /\ si_ptr t <> None) \/ (si_mult t = f0 /\ si_off t = s).
Proof.
  intros [t' s' I|t' s' I|n]; [destruct I|destruct I|]; cbn [si_mult si_ptr si_off]; try (left; split; [reflexivity|discriminate]); right; split; reflexivity.
Qed.

Lemma good_eq a b s1 s2 : good a s1 -> good b s2 -> si_eq a b = true -> s1 = s2.
Proof.
  intros Ga Gb. unfold si_eq, si_eq_int.
  destruct (good_mult _ _ Ga) as [[Ma Pa]|[Ma Oa]], (good_mult _ _ Gb) as [[Mb Pb]|[Mb Ob]]; rewrite Ma, Mb;
    change (fr_eq_int f0 0) with true; change (fr_eq_int f1 0) with false; cbn [andb]; try discriminate.
  - destruct (good_declares _ _ Ga Pa) as (p & x & E1 & E2 & E3). destruct (good_declares _ _ Gb Pb) as (q & y & F1 & F2 & F3).
    rewrite E1, F1. cbn [ptr_eqb]. destruct (Nat.eqb_spec p q) as [<- |]; cbn [negb]; [|discriminate].
    change (fr_eq f1 f1) with true. cbn [andb]. rewrite !Bool.andb_true_iff, !Z.eqb_eq. intros [[Eo Em] Ex].
    rewrite Ma, Eo in E2. rewrite Mb in F2. assert (x = y) by (apply zq_inj; congruence). subst y.
    assert (EX : si_max a = si_max b).
    { destruct (si_max a), (si_max b); cbn [opt_eqb] in Ex; try discriminate; auto. apply Z.eqb_eq in Ex. now subst. }
    cbv zeta in E3, F3. unfold vor in Em. rewrite Em, EX in E3. congruence.
  - intros H. apply Z.eqb_eq in H. congruence.
Qed.

Lemma both_good fuel : forall a b sa sb s1 s2 r, good sa s1 -> good sb s2 -> both ctx fuel a b sa sb = Ok r ->
  match r with inl x => x = true -> s1 = s2 | inr (_, _, sa', sb') => good sa' s1 /\ good sb' s2 end.
Proof.
  induction fuel as [|fuel IH]; intros a b sa sb s1 s2 r Ga Gb; cbn [both].
  - destruct (_ && _); [discriminate|]. intros H. assert (r = inr (a, b, sa, sb)) by congruence. subst r. auto.
  - destruct (_ && _); [|intros H; assert (r = inr (a, b, sa, sb)) by congruence; subst r; auto].
    destruct (si_ptr sa) as [a'|], (si_ptr sb) as [b'|]; try discriminate.
    intros H. apply rbind_inv in H as (ta & Ha & H). apply rbind_inv in H as (tb & Hb & H).
    pose proof (good_subst 1 _ _ _ Ga Ha) as Ga'. pose proof (good_subst 1 _ _ _ Gb Hb) as Gb'.
    destruct (si_eq ta tb) eqn:E.
    + assert (r = inl true) by congruence. subst r. intros _. eapply good_eq; eassumption.
    + eapply IH; eassumption.
Qed.
Lemma one_good fuel test : forall a sa s1 r, good sa s1 -> one ctx fuel test a sa = Ok r ->
  good (snd r) s1 /\ (fst r = true -> test (snd r) = true).
Proof.
  induction fuel as [|fuel IH]; intros a sa s1 r Ga; cbn [one].
  - destruct (negb _); [discriminate|]. intros H. assert (r = (false, sa)) by congruence. subst r. split; [assumption|discriminate].
  - destruct (negb _); [|intros H; assert (r = (false, sa)) by congruence; subst r; split; [assumption|discriminate]].
    destruct (si_ptr sa) as [a'|]; try discriminate. intros H. apply rbind_inv in H as (ta & Ha & H).
    pose proof (good_subst 1 _ _ _ Ga Ha) as Ga'. destruct (test ta) eqn:E.
    + assert (r = (true, ta)) by congruence. subst r. auto.
    + eapply IH; eassumption.
Qed.

Definition known (id : nat) : Prop := trimmed ctx id \/ headed ctx id \/ exists n, ctx id = Some (AFixed n).

Lemma known_good id S : known id -> info ctx id = Ok S -> good S (sz id).
Proof.
  intros [T|[H|[n E]]] I.
  - apply G_T. now apply info_T.
  - apply G_H. now apply info_H.
  - unfold info in I. rewrite E in I. assert (S = si_fixed n) by congruence. subst S. destruct (SZ id _ E) as [_ B]. cbn beta iota in B. rewrite B. apply G_fixed.
Qed.

Lemma shape_equal_sizes fuel a b : known a -> known b -> shape_equal ctx fuel a b = Ok true -> sz a = sz b.
Proof.
  intros Ka Kb H. unfold shape_equal in H. apply rbind_inv in H as (sa & Ha & H). apply rbind_inv in H as (sb & Hb & H).
  apply known_good in Ha; auto. apply known_good in Hb; auto.
  destruct (si_eq sa sb) eqn:E; [eapply good_eq; eassumption|].
  destruct (si_ptr sa), (si_ptr sb); try discriminate H. apply rbind_inv in H as (r & Hr & H).
  pose proof (both_good fuel a b sa sb _ _ r Ha Hb Hr) as R. destruct r as [x|[[[a' b'] sa'] sb']].
  - apply R. congruence.
  - destruct R as [Ga Gb]. apply rbind_inv in H as ([r1 sa2] & H1 & H).
    destruct (one_good fuel _ a' sa' _ _ Ga H1) as [Ga2 T1]. cbn [fst snd] in *. destruct r1.
    + eapply good_eq; [exact Ga2|exact Gb|auto].
    + apply rbind_inv in H as ([r2 sb2] & H2 & H). assert (r2 = true) by congruence. subst r2.
      destruct (one_good fuel _ b' sb' _ _ Gb H2) as [Gb2 T2]. cbn [fst snd] in *. eapply good_eq; [exact Ga2|exact Gb2|auto].
Qed.
End Inv.
