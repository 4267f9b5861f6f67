(** The generators' models, for all values of the decisions at once; and what the generators refuse. *)
From Coq Require Import Permutation.
From Verif Require Import Base Num SliceModel ShapeModel BasicModel NaryModel ReduceModel BoundsModel PermModel AdvModel NarySpec PyModel GenModel PySpec GenSpec PyProofs PyValues PyRules
  GenProofs GenProofs2 GenProofs3 GenProofs4 GenProofs5 GenProofs6.
Set Implicit Arguments.

Lemma one_model {A P} (g : py A) m (ok : P -> Prop) (Q : P -> A -> pym -> Prop) p0 :
  (forall p, ok p -> runs g m (Q p)) -> ok p0 -> exists a m', g m = Ok (a, m') /\ forall p, ok p -> Q p a m'.
Proof.
  intros H H0. destruct (H p0 H0) as (a & m' & E & _). exists a, m'. split; [exact E|]. intros p Hp. destruct (H p Hp) as (b & m'' & E' & HQ).
  rewrite E in E'. injection E' as <- <-. exact HQ.
Qed.
Lemma perm_ok n p : Permutation p (seq 0 n) -> length p = n /\ Forall (fun i => i < n) p.
Proof.
  intros H. split; [now rewrite (Permutation_length H), seq_length|]. apply Forall_forall. intros x Hx. apply (Permutation_in _ H), in_seq in Hx. lia.
Qed.
Lemma one_decision A (g : py A) a m x c sh : adds 1 g -> g no_model = Ok (a, m) -> decision m x c sh -> decided_cls c = true -> forall y, In y (decisions m) <-> y = x.
Proof.
  intros Hg E D Hc y. rewrite (@decisions_all m [x]).
  - cbn. split; [intros [->|[]]; reflexivity|intros ->; now left].
  - repeat constructor. now intros [].
  - rewrite (Hg _ _ _ E). reflexivity.
  - intros z [<-|[]]. now exists c, sh.
Qed.
Lemma many_decisions A (g : py A) a m x k (c : nat -> cls) sh : adds k g -> g no_model = Ok (a, m) -> (forall i, i < k -> decision m (x + i) (c i) sh) ->
  (forall i, decided_cls (c i) = true) -> forall y, In y (decisions m) <-> x <= y < x + k.
Proof.
  intros Hg E D Hc y. rewrite (@decisions_all m (seq x k)).
  - apply in_seq.
  - apply seq_NoDup.
  - rewrite (Hg _ _ _ E), seq_length. reflexivity.
  - intros z Hz. apply in_seq in Hz. exists (c (z - x)), sh. split; [|apply Hc]. replace z with (x + (z - x)) at 1 by lia. apply D. lia.
Qed.

Theorem tsp_model n D : 1 <= n -> (Z.of_nat (n * n) < 2147483648)%Z -> matrix n n D -> Forall nonnegative D ->
  exists m, traveling_salesperson D no_model = Ok (0, m) /\ (forall x, In x (decisions m) <-> x = 0) /\ decision m 0 KList [Z.of_nat n] /\ p_cons m = [] /\
    forall dv p, Permutation p (seq 0 n) -> dv 0 = numbers p -> objective m dv (tour D p).
Proof.
  intros Hn Hs HD H0.
  destruct (@one_model nat (list nat * (nat -> list num)) (traveling_salesperson D) no_model
    (fun q => Permutation (fst q) (seq 0 n) /\ snd q 0 = numbers (fst q))
    (fun q x m => x = 0 /\ decision m 0 KList [Z.of_nat n] /\ p_cons m = [] /\ objective m (snd q) (tour D (fst q))) (seq 0 n, fun _ => numbers (seq 0 n))) as (a & m & E & H).
  - intros [p dv] [Hp Hdv]. cbn [fst snd] in *. destruct (perm_ok _ Hp). apply tsp_runs; auto.
  - split; [apply Permutation_refl|reflexivity].
  - destruct (H (seq 0 n, fun _ => numbers (seq 0 n))) as (-> & D0 & C0 & _); [split; [apply Permutation_refl|reflexivity]|].
    exists m. split; [exact E|]. split; [eapply one_decision; [apply adds_tsp|exact E|exact D0|reflexivity]|]. split; [exact D0|]. split; [exact C0|].
    intros dv p Hp Hdv. apply (H (p, dv)). now split.
Qed.
Theorem qap_model n D F : 1 <= n -> (Z.of_nat (n * n) < 2147483648)%Z -> matrix n n D -> matrix n n F -> Forall nonnegative D -> Forall nonnegative F ->
  exists m, quadratic_assignment D F no_model = Ok (0, m) /\ (forall x, In x (decisions m) <-> x = 0) /\ decision m 0 KList [Z.of_nat n] /\ p_cons m = [] /\
    forall dv p, Permutation p (seq 0 n) -> dv 0 = numbers p -> objective m dv (assignment_cost n D F p).
Proof.
  intros Hn Hs HD HF H0 F0.
  destruct (@one_model nat (list nat * (nat -> list num)) (quadratic_assignment D F) no_model
    (fun q => Permutation (fst q) (seq 0 n) /\ snd q 0 = numbers (fst q))
    (fun q x m => x = 0 /\ decision m 0 KList [Z.of_nat n] /\ p_cons m = [] /\ objective m (snd q) (assignment_cost n D F (fst q))) (seq 0 n, fun _ => numbers (seq 0 n))) as (a & m & E & H).
  - intros [p dv] [Hp Hdv]. cbn [fst snd] in *. destruct (perm_ok _ Hp). apply qap_runs; auto.
  - split; [apply Permutation_refl|reflexivity].
  - destruct (H (seq 0 n, fun _ => numbers (seq 0 n))) as (-> & D0 & C0 & _); [split; [apply Permutation_refl|reflexivity]|].
    exists m. split; [exact E|]. split; [eapply one_decision; [apply adds_qap|exact E|exact D0|reflexivity]|]. split; [exact D0|]. split; [exact C0|].
    intros dv p Hp Hdv. apply (H (p, dv)). now split.
Qed.
Theorem knapsack_model n values weights capacity : length values = n -> length weights = n -> (Z.of_nat n < 2147483648)%Z ->
  nonnegative values -> nonnegative weights -> (0 < capacity)%Qc ->
  exists m, knapsack values weights capacity no_model = Ok (3, m) /\ (forall x, In x (decisions m) <-> x = 3) /\
    decision m 3 (KSet (Z.of_nat n)) [if (n =? 0)%nat then 0 else -1]%Z /\
    forall dv items, NoDup items -> Forall (fun i => i < n) items -> dv 3 = numbers items ->
      objective m dv (- total values items)%Qc /\ feasible_iff m dv (total weights items <= capacity)%Qc.
Proof.
  intros Hv Hw Hs V0 W0 Hc.
  destruct (@one_model nat (list nat * (nat -> list num)) (knapsack values weights capacity) no_model
    (fun q => Forall (fun i => i < n) (fst q) /\ snd q 3 = numbers (fst q))
    (fun q x m => x = 3 /\ decision m 3 (KSet (Z.of_nat n)) [if Z.of_nat n =? 0 then 0 else -1]%Z /\ objective m (snd q) (- total values (fst q))%Qc /\
      feasible_iff m (snd q) (total weights (fst q) <= capacity)%Qc) ([], fun _ => [])) as (a & m & E & H).
  - intros [p dv] [Hp Hdv]. cbn [fst snd] in *. apply knapsack_runs; auto.
  - split; [constructor|reflexivity].
  - destruct (H ([], fun _ => [])) as (-> & D0 & _); [split; [constructor|reflexivity]|].
    exists m. split; [exact E|]. split; [eapply one_decision; [apply adds_knapsack|exact E|exact D0|reflexivity]|]. split.
    + replace (n =? 0) with (Z.of_nat n =? 0)%Z; [exact D0|]. destruct (Z.eqb_spec (Z.of_nat n) 0), (Nat.eqb_spec n 0); auto; lia.
    + intros dv p _ Hp Hdv. apply (H (p, dv)). now split.
Qed.
(** Bins of distinct items. *)
Lemma partition_ok n (bins : list (list nat)) : Permutation (concat bins) (seq 0 n) -> Forall (fun b => NoDup b /\ Forall (fun i => i < n) b) bins.
Proof.
  intros H. assert (Hd : NoDup (concat bins)) by (eapply Permutation_NoDup; [apply Permutation_sym, H|apply seq_NoDup]).
  assert (Hl : Forall (fun i => i < n) (concat bins)) by (apply Forall_forall; intros x Hx; apply (Permutation_in _ H), in_seq in Hx; lia).
  clear H. induction bins as [|b bins IH]; [constructor|]. cbn in *. apply Forall_app in Hl as [Hl1 Hl2]. constructor.
  - split; [|exact Hl1]. clear - Hd. induction b as [|x b IH]; [constructor|]. cbn in Hd. inversion Hd as [|? ? Hx Hd']; subst. constructor; [|now apply IH].
    intros Hi. apply Hx, in_or_app. now left.
  - apply IH; [|exact Hl2]. clear - Hd. induction b as [|x b IH]; [exact Hd|]. inversion Hd. now apply IH.
Qed.
Lemma repeat_concat {A} n : concat (repeat (@nil A) n) = [].
Proof. induction n; [reflexivity|exact IHn]. Qed.
Theorem bin_packing_model weights capacity : let n := length weights in
  1 <= n -> (Z.of_nat n < 2147483648)%Z -> nonnegative weights -> (0 < capacity)%Qc -> Forall (fun w => (w <= capacity)%Qc) weights ->
  exists m, bin_packing weights capacity no_model = Ok ((2, seq 3 n), m) /\ (forall x, In x (decisions m) <-> 3 <= x < 3 + n) /\
    (forall i, i < n -> decision m (3 + i) (KBitOf 2 (Z.of_nat n) n i) [Z.of_nat n]) /\
    forall dv bins, length bins = n -> Permutation (concat bins) (seq 0 n) -> (forall i, i < n -> dv (3 + i) = bits n (nth i bins [])) ->
      objective m dv (used bins) /\ feasible_iff m dv (Forall (fun b => total weights b <= capacity)%Qc bins).
Proof.
  intros n Hn Hs W0 Hc Hw.
  pose (b0 := seq 0 n :: repeat [] (n - 1)). pose (d0 := fun i => bits n (nth (i - 3) b0 [])).
  assert (H0 : length b0 = n /\ Permutation (concat b0) (seq 0 n) /\ (forall i, i < n -> d0 (3 + i) = bits n (nth i b0 []))).
  { split; [unfold b0; cbn [length]; rewrite repeat_length; lia|]. split.
    - unfold b0. cbn [concat]. rewrite repeat_concat, app_nil_r. apply Permutation_refl.
    - intros i _. unfold d0. now replace (3 + i - 3) with i by lia. }
  destruct (@one_model _ (list (list nat) * (nat -> list num)) (bin_packing weights capacity) no_model
    (fun q => length (fst q) = n /\ Permutation (concat (fst q)) (seq 0 n) /\ (forall i, i < n -> snd q (3 + i) = bits n (nth i (fst q) [])))
    (fun q r m => r = (2, seq 3 n) /\ (forall i, i < n -> decision m (3 + i) (KBitOf 2 (Z.of_nat n) n i) [Z.of_nat n]) /\ objective m (snd q) (used (fst q)) /\
      feasible_iff m (snd q) (Forall (fun b => total weights b <= capacity)%Qc (fst q))) (b0, d0)) as (a & m & E & H).
  - intros [bins dv] (Hb & Hp & Hdv). cbn [fst snd] in *. apply bin_packing_runs; auto. now apply partition_ok.
  - exact H0.
  - destruct (H (b0, d0) H0) as (-> & D0 & _). exists m. split; [exact E|]. split.
    { eapply many_decisions; [apply adds_bin_packing|exact E|exact D0|reflexivity]. }
    split; [exact D0|]. intros dv bins Hb Hp Hdv. apply (H (bins, dv)). now repeat split.
Qed.
Lemma in_concat_length {A} (l : list A) ll : In l ll -> length l <= length (concat ll).
Proof. induction ll as [|a ll IH]; [intros []|]. cbn. rewrite app_length. intros [->|Hi]; [lia|]. specialize (IH Hi). lia. Qed.
Theorem cvrp_model n k demand capacity D : 1 <= n -> (Z.of_nat n < 2147483647)%Z -> 1 <= k -> matrix (S n) (S n) D -> Forall nonnegative D ->
  length demand = n -> Forall (fun x => 0 < x)%Qc demand -> (0 < capacity)%Qc -> (qsum_of demand <= zq (Z.of_nat k) * capacity)%Qc ->
  exists m, capacitated_vehicle_routing (0%Qc :: demand) k capacity D no_model = Ok ((5, seq 6 k), m) /\ (forall x, In x (decisions m) <-> 6 <= x < 6 + k) /\
    (forall i, i < k -> decision m (6 + i) (KListOf 5 (Z.of_nat n) k i) [-1]%Z) /\
    forall dv routes, length routes = k -> Permutation (concat routes) (seq 0 n) -> (forall i, i < k -> dv (6 + i) = numbers (nth i routes [])) ->
      objective m dv (qsum_of (map (trip D) routes)) /\ feasible_iff m dv (Forall (fun r => total demand r <= capacity)%Qc routes).
Proof.
  intros Hn Hs Hk HD H0 Hl Hpos Hc Htot.
  pose (b0 := seq 0 n :: repeat [] (k - 1)). pose (d0 := fun i => numbers (nth (i - 6) b0 [])).
  assert (HH : length b0 = k /\ Permutation (concat b0) (seq 0 n) /\ (forall i, i < k -> d0 (6 + i) = numbers (nth i b0 []))).
  { split; [unfold b0; cbn [length]; rewrite repeat_length; lia|]. split.
    - unfold b0. cbn [concat]. rewrite repeat_concat, app_nil_r. apply Permutation_refl.
    - intros i _. unfold d0. now replace (6 + i - 6) with i by lia. }
  destruct (@one_model _ (list (list nat) * (nat -> list num)) (capacitated_vehicle_routing (0%Qc :: demand) k capacity D) no_model
    (fun q => length (fst q) = k /\ Permutation (concat (fst q)) (seq 0 n) /\ (forall i, i < k -> snd q (6 + i) = numbers (nth i (fst q) [])))
    (fun q r m => r = (5, seq 6 k) /\ (forall i, i < k -> decision m (6 + i) (KListOf 5 (Z.of_nat n) k i) [-1]%Z) /\ objective m (snd q) (qsum_of (map (trip D) (fst q))) /\
      feasible_iff m (snd q) (Forall (fun r => total demand r <= capacity)%Qc (fst q))) (b0, d0)) as (a & m & E & H).
  - intros [routes dv] (Hb & Hp & Hdv). cbn [fst snd] in *. subst k. apply cvrp_runs with (n := n); auto.
    pose proof (partition_ok _ _ Hp) as HP. rewrite Forall_forall in HP |- *. intros r Hr. split; [|now apply HP].
    rewrite <- (seq_length n 0), <- (Permutation_length Hp). now apply in_concat_length.
  - exact HH.
  - destruct (H (b0, d0) HH) as (-> & D0 & _). exists m. split; [exact E|]. split.
    { eapply many_decisions; [apply adds_cvrp|exact E|exact D0|reflexivity]. }
    split; [exact D0|]. intros dv bins Hb Hp Hdv. apply (H (bins, dv)). now repeat split.
Qed.
Theorem job_shop_model jobs k times M one_based bound : let T := map (map zq) times in let upper := horizon times bound in
  1 <= jobs -> 1 <= k -> (Z.of_nat (jobs * jobs * k) < 2147483648)%Z -> matrix jobs k T -> Forall (Forall (fun t => 0 <= t)%Z) times ->
  length M = jobs -> Forall (fun row => Permutation row (seq 0 k)) M -> one_based = 0 \/ one_based = 1 -> (forall u, bound = Some u -> (1 <= u)%Z) ->
  (upper <= 2000000000)%Z ->
  exists m, job_shop_scheduling times (map (map (fun i => Z.of_nat (one_based + i))) M) bound no_model = Ok (2, m) /\
    (forall x, In x (decisions m) <-> x = 2) /\ decision m 2 (KInteger 0 upper) [Z.of_nat jobs; Z.of_nat k] /\
    forall dv St, matrix jobs k St -> dv 2 = concat St ->
      (exists e, last_end T St jobs k e /\ objective m dv e) /\ feasible_iff m dv (in_order T St M /\ no_overlap T St jobs k).
Proof.
  intros T upper Hj Hk Hs HT HT0 HM1 HM Hone Hb Hu.
  assert (HH : matrix jobs k T /\ (fun _ : nat => concat T) 2 = concat T) by (split; [exact HT|reflexivity]).
  destruct (@one_model _ (list (list num) * (nat -> list num)) (job_shop_scheduling times (map (map (fun i => Z.of_nat (one_based + i))) M) bound) no_model
    (fun q => matrix jobs k (fst q) /\ snd q 2 = concat (fst q))
    (fun q x m => x = 2 /\ decision m 2 (KInteger 0 upper) [Z.of_nat jobs; Z.of_nat k] /\ (exists e, last_end T (fst q) jobs k e /\ objective m (snd q) e) /\
      feasible_iff m (snd q) (in_order T (fst q) M /\ no_overlap T (fst q) jobs k)) (T, fun _ => concat T)) as (a & m & E & H).
  - intros [St dv] (HS & Hdv). cbn [fst snd] in *. apply job_shop_runs; auto.
  - exact HH.
  - destruct (H (T, fun _ => concat T) HH) as (-> & D0 & _). exists m. split; [exact E|]. split.
    { eapply one_decision; [apply adds_job_shop|exact E|exact D0|reflexivity]. }
    split; [exact D0|]. intros dv St HS Hdv. apply (H (St, dv)). now split.
Qed.
Theorem flow_shop_model M J P : matrix M J P -> 1 <= M -> 1 <= J -> (Z.of_nat (M * J) < 2147483648)%Z -> Forall nonnegative P ->
  exists m, flow_shop_scheduling P no_model = Ok (1, m) /\ (forall x, In x (decisions m) <-> x = 1) /\ decision m 1 KList [Z.of_nat J] /\ p_cons m = [] /\
    forall dv order, Permutation order (seq 0 J) -> dv 1 = numbers order -> objective m dv (held_makespan P order).
Proof.
  intros HP HM HJ Hs H0.
  destruct (@one_model nat (list nat * (nat -> list num)) (flow_shop_scheduling P) no_model
    (fun q => Permutation (fst q) (seq 0 J) /\ snd q 1 = numbers (fst q))
    (fun q x m => x = 1 /\ decision m 1 KList [Z.of_nat J] /\ p_cons m = [] /\ objective m (snd q) (held_makespan P (fst q))) (seq 0 J, fun _ => numbers (seq 0 J))) as (a & m & E & H).
  - intros [p dv] [Hp Hdv]. cbn [fst snd] in *. destruct (perm_ok _ Hp). apply flow_shop_runs with (M := M); auto.
  - split; [apply Permutation_refl|reflexivity].
  - destruct (H (seq 0 J, fun _ => numbers (seq 0 J))) as (-> & D0 & C0 & _); [split; [apply Permutation_refl|reflexivity]|].
    exists m. split; [exact E|]. split; [eapply one_decision; [apply adds_flow_shop|exact E|exact D0|reflexivity]|]. split; [exact D0|]. split; [exact C0|].
    intros dv p Hp Hdv. apply (H (p, dv)). now split.
Qed.
Lemma times_ok P order : Forall nonnegative P ->
  Forall (fun row => (0 <= nth (hd O order) row 0)%Qc) P.
Proof.
  intros H. eapply Forall_impl; [|exact H]. intros row Hr. destruct (nth_in_or_default (hd O order) row 0%Qc) as [Hi| ->]; [|apply Qcle_refl].
  unfold nonnegative in Hr. rewrite Forall_forall in Hr. now apply Hr.
Qed.

(** * What is refused *)
Lemma require_matrix_cases D m : (exists r c, require_matrix D m = Ok ((Z.of_nat r, Z.of_nat c), m) /\ ((D = [] /\ r = 1 /\ c = 0) \/ (1 <= r /\ matrix r c D /\ Forall nonnegative D)))
  \/ (require_matrix D m = Throw /\ ~ (exists r c, 1 <= r /\ matrix r c D /\ Forall nonnegative D)).
Proof.
  destruct D as [|row D']; [left; exists 1, 0; split; [reflexivity|now left]|]. unfold require_matrix. set (D := row :: D').
  destruct (forallb (fun s => length s =? length row) D) eqn:E1.
  - assert (HM : matrix (length D) (length row) D).
    { split; [reflexivity|]. apply Forall_forall. intros s Hs. rewrite forallb_forall in E1. now apply Nat.eqb_eq, E1. }
    destruct (forallb (forallb (fun x => negb (qltb x 0%Qc))) D) eqn:E2.
    + left. exists (length D), (length row). split; [reflexivity|]. right. split; [cbn; lia|]. split; [exact HM|].
      apply Forall_forall. intros s Hs. apply Forall_forall. intros x Hx. rewrite forallb_forall in E2. specialize (E2 s Hs). rewrite forallb_forall in E2. specialize (E2 x Hx).
      destruct (qltb_spec x 0%Qc); [discriminate|]. now apply Qcnot_lt_le.
    + right. split; [reflexivity|]. intros (r & c & _ & _ & H). assert (forallb (forallb (fun x => negb (qltb x 0%Qc))) D = true); [|congruence].
      apply forallb_forall. intros s Hs. apply forallb_forall. intros x Hx. rewrite Forall_forall in H. specialize (H s Hs). unfold nonnegative in H. rewrite Forall_forall in H.
      specialize (H x Hx). destruct (qltb_spec x 0%Qc) as [L|]; [|reflexivity]. exfalso. exact (Qclt_not_le _ _ L H).
  - right. split; [reflexivity|]. intros (r & c & _ & [_ H] & _). assert (forallb (fun s => length s =? length row) D = true); [|congruence].
    rewrite Forall_forall in H. apply forallb_forall. intros s Hs. apply Nat.eqb_eq. rewrite (H s Hs). symmetry. apply H. now left.
Qed.
Lemma require_square_cases D m : (exists n, require_square D m = Ok (Z.of_nat n, m) /\ 1 <= n /\ matrix n n D /\ Forall nonnegative D)
  \/ (require_square D m = Throw /\ ~ (exists n, 1 <= n /\ matrix n n D /\ Forall nonnegative D)).
Proof.
  unfold require_square, bind. destruct (require_matrix_cases D m) as [(r & c & -> & H)|[-> H]].
  - destruct (Z.eqb_spec (Z.of_nat r) (Z.of_nat c)) as [E|E].
    + apply Nat2Z.inj in E as <-. destruct H as [(_ & -> & ?)|H]; [discriminate|]. left. exists r. now split.
    + right. split; [reflexivity|]. intros (n & H1 & [H2 H3] & H4). destruct H as [(-> & -> & ->)|(H5 & [H6 H7] & _)]; [cbn in H2; lia|].
      apply E. destruct D as [|row D']; [cbn in *; lia|]. inversion H3; inversion H7; subst. cbn in *. lia.
  - right. split; [reflexivity|]. intros (n & ? & ? & ?). apply H. now exists n, n.
Qed.
Theorem tsp_refuses D : ~ (exists n, 1 <= n /\ matrix n n D /\ Forall nonnegative D) -> traveling_salesperson D no_model = Throw.
Proof. intros H. unfold traveling_salesperson, bind at 1. destruct (require_square_cases D no_model) as [(n & -> & Hn)|[-> _]]; [|reflexivity]. exfalso. apply H. now exists n. Qed.
Theorem qap_refuses D F : ~ (exists n, 1 <= n /\ matrix n n D /\ matrix n n F /\ Forall nonnegative D /\ Forall nonnegative F) -> quadratic_assignment D F no_model = Throw.
Proof.
  intros H. unfold quadratic_assignment, bind at 1. destruct (require_square_cases D no_model) as [(n & -> & Hn & HD & D0)|[-> _]]; [|reflexivity].
  unfold bind at 1. destruct (require_square_cases F no_model) as [(k & -> & Hk & HF & F0)|[-> _]]; [|reflexivity].
  unfold bind at 1, unless. destruct (Z.eqb_spec (Z.of_nat n) (Z.of_nat k)) as [E|E]; [|reflexivity]. apply Nat2Z.inj in E as <-. exfalso. apply H. exists n. auto.
Qed.
Lemma require_vector_cases w m : (require_vector w m = Ok (tt, m) /\ nonnegative w) \/ (require_vector w m = Throw /\ ~ nonnegative w).
Proof.
  unfold require_vector, unless. destruct (existsb (fun x => qltb x 0%Qc) w) eqn:E.
  - right. split; [reflexivity|]. apply existsb_exists in E as (x & Hx & L). intros H. unfold nonnegative in H. rewrite Forall_forall in H.
    destruct (qltb_spec x 0%Qc) as [L'|]; [|discriminate]. exact (Qclt_not_le _ _ L' (H x Hx)).
  - left. split; [reflexivity|]. apply Forall_forall. intros x Hx. apply Qcnot_lt_le. intros L.
    assert (existsb (fun x => qltb x 0%Qc) w = true); [|congruence]. apply existsb_exists. exists x. split; [exact Hx|]. now destruct (qltb_spec x 0%Qc).
Qed.
Theorem knapsack_refuses values weights capacity : ~ (length values = length weights /\ nonnegative values /\ nonnegative weights /\ (0 < capacity)%Qc) ->
  knapsack values weights capacity no_model = Throw.
Proof.
  intros H. unfold knapsack. unfold bind at 1. destruct (require_vector_cases weights no_model) as [(-> & HW)|(-> & _)]; [|reflexivity].
  unfold bind at 1. destruct (require_vector_cases values no_model) as [(-> & HV)|(-> & _)]; [|reflexivity]. cbv zeta.
  unfold bind at 1, unless, zlen. destruct (Z.eqb_spec (Z.of_nat (length values)) (Z.of_nat (length weights))) as [E|E]; [|reflexivity]. cbn [negb].
  unfold ret at 1. unfold bind at 1. destruct (qleb_spec capacity 0%Qc) as [L|L]; [reflexivity|]. exfalso. apply H. apply Nat2Z.inj in E. repeat split; auto. now apply Qcnot_le_lt.
Qed.
Theorem bin_packing_refuses weights capacity : ~ (weights <> [] /\ nonnegative weights /\ (0 < capacity)%Qc /\ Forall (fun w => (w <= capacity)%Qc) weights) ->
  bin_packing weights capacity no_model = Throw.
Proof.
  intros H. unfold bin_packing. unfold bind at 1. destruct (require_vector_cases weights no_model) as [(-> & HW)|(-> & _)]; [|reflexivity]. cbv zeta.
  unfold bind at 1, unless, zlen. destruct (Z.eqb_spec (Z.of_nat (length weights)) 0) as [E|E]; [reflexivity|]. unfold ret at 1. unfold bind at 1.
  destruct (qleb_spec capacity 0%Qc) as [L|L]; [reflexivity|]. unfold ret at 1. unfold bind at 1. destruct (existsb (fun x => qltb capacity x) weights) eqn:Ex; [reflexivity|].
  exfalso. apply H. split; [intros ->; now apply E|]. split; [exact HW|]. split; [now apply Qcnot_le_lt|]. apply Forall_forall. intros x Hx.
  apply Qcnot_lt_le. intros L'. assert (existsb (fun x => qltb capacity x) weights = true); [|congruence].
  apply existsb_exists. exists x. split; [exact Hx|]. now destruct (qltb_spec capacity x).
Qed.
Theorem flow_shop_refuses P : ~ (exists M J, 1 <= M /\ 1 <= J /\ matrix M J P /\ Forall nonnegative P) -> flow_shop_scheduling P no_model = Throw.
Proof.
  intros H. unfold flow_shop_scheduling, bind at 1. destruct (require_matrix_cases P no_model) as [(r & c & -> & HH)|[-> _]]; [|reflexivity].
  unfold bind at 1, unless. destruct (Z.eqb_spec (Z.of_nat r) 0); [reflexivity|]. destruct (Z.eqb_spec (Z.of_nat c) 0); [reflexivity|]. cbn [orb].
  exfalso. apply H. exists r, c. destruct HH as [(_ & _ & ?)|(? & ? & ?)]; [lia|]. split; [lia|]. split; [lia|]. now split.
Qed.
Theorem cvrp_refuses demand k capacity D : ~ (exists n d, demand = 0%Qc :: d /\ length d = n /\ 1 <= n /\ 1 <= k /\ (0 < capacity)%Qc /\ Forall (fun x => 0 < x)%Qc d /\
    (qsum_of d <= zq (Z.of_nat k) * capacity)%Qc /\ matrix (S n) (S n) D /\ Forall nonnegative D) ->
  capacitated_vehicle_routing demand k capacity D no_model = Throw.
Proof.
  intros H. unfold capacitated_vehicle_routing. unfold bind at 1, unless at 1. destruct (Nat.eqb_spec k 0) as [|Hk]; [reflexivity|]. unfold ret at 1.
  unfold bind at 1, unless at 1. destruct (qleb_spec capacity 0%Qc) as [L|L]; [reflexivity|]. unfold ret at 1.
  unfold bind at 1. destruct (require_vector_cases demand no_model) as [(-> & HW)|(-> & _)]; [|reflexivity].
  unfold bind at 1, unless at 1. destruct (qltb_spec (zq (Z.of_nat k) * capacity)%Qc (fold_right Qcplus 0%Qc demand)) as [L'|L']; [reflexivity|]. unfold ret at 1.
  unfold bind at 1. destruct (require_square_cases D no_model) as [(n & -> & Hn & HD & D0)|[-> _]]; [|reflexivity].
  unfold bind at 1, unless at 1. destruct (Z.ltb_spec (Z.of_nat n) 2) as [|Hn2]; [reflexivity|]. unfold ret at 1.
  unfold bind at 1, unless at 1, zlen at 1. destruct (Z.eqb_spec (Z.of_nat n) (Z.of_nat (length demand))) as [Hl|]; [|reflexivity]. cbn [negb]. unfold ret at 1.
  unfold bind at 1, unless at 1. destruct (qeqb_spec (hd 0%Qc demand) 0%Qc) as [Hh|]; [|reflexivity]. cbn [negb]. unfold ret at 1.
  unfold cvrp_core. cbv zeta. unfold bind at 1, unless at 1. destruct (existsb (fun x => qeqb x 0%Qc) (tl demand)) eqn:Ez; [reflexivity|]. exfalso. apply H.
  apply Nat2Z.inj in Hl. destruct demand as [|z d]; [cbn in Hl; lia|]. cbn [hd tl] in *. subst z. destruct n as [|n]; [lia|].
  exists n, d. cbn [length] in Hl. split; [reflexivity|]. split; [lia|]. split; [lia|]. split; [lia|]. split; [now apply Qcnot_le_lt|]. split.
  { apply Forall_forall. intros x Hx. inversion HW as [|? ? _ Hd0]; subst. rewrite Forall_forall in Hd0. destruct (Qcle_lt_or_eq _ _ (Hd0 x Hx)) as [|<-]; [assumption|].
    assert (existsb (fun x => qeqb x 0%Qc) d = true); [|congruence]. apply existsb_exists. exists 0%Qc. split; [exact Hx|]. now destruct (qeqb_spec 0%Qc 0%Qc). }
  split; [|now split]. apply Qcnot_lt_le in L'. cbn [fold_right] in L'. rewrite Qcplus_0_l in L'. exact L'.
Qed.
