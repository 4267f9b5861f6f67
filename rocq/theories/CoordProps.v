(** C54, C66 for vehicle routing from locations.  Generator modelled in [CoordModel.v]. *)
From Coq Require Import Permutation.
From Verif Require Import Base Num SliceModel NodeSpec NarySpec ViewModel BinaryModel GraphModel GraphSpec ProposeModel ProposeSpec PyModel GenModel PySpec GenSpec RunModel RunSpec RunSpec2 GenProofs7 RunProofs13 CoordModel CoordSpec CoordProofs.
Local Open Scope nat_scope.

(** From locations, with the depot among them or given apart, the model is the one of the distances between the locations; so its objective is the length of the
    trips.  [root] is any function that makes non-negative numbers of non-negative numbers, in place of the square root. *)
Theorem C54_locations root n k demand capacity xs ys depot d p0 ps : (forall z, (0 <= z)%Qc -> (0 <= root z)%Qc) -> located demand xs ys depot d p0 ps ->
  1 <= n -> (Z.of_nat n < 2147483647)%Z -> 1 <= k -> length d = n -> Forall (fun x => 0 < x)%Qc d -> (0 < capacity)%Qc -> (qsum_of d <= zq (Z.of_nat k) * capacity)%Qc ->
  exists m, cvrp_locations root demand k capacity xs ys depot no_model = Ok ((5, seq 6 k), m) /\ (forall x, In x (decisions m) <-> 6 <= x < 6 + k) /\
    (forall i, i < k -> decision m (6 + i) (KListOf 5 (Z.of_nat n) k i) [-1]%Z) /\
    forall dv routes, length routes = k -> Permutation (concat routes) (seq 0 n) -> (forall i, i < k -> dv (6 + i) = numbers (nth i routes [])) ->
      objective m dv (qsum_of (map (trip (distances root (p0 :: ps))) routes)) /\ feasible_iff m dv (Forall (fun r => GenSpec.total d r <= capacity)%Qc routes).
Proof.
  intros Hr HL Hn Hs Hk Hd Hp Hc Ht. rewrite (@locations_distances root k capacity demand xs ys depot d p0 ps) by (assumption || (intros ->; cbn in Hd; lia)).
  apply cvrp_model; try assumption; [|now apply distances_nonneg]. pose proof (distances_square root (p0 :: ps)) as M. cbn [length] in M. destruct HL as [El _]. now rewrite <- El, Hd in M.
Qed.
Print Assumptions C54_locations.
(** Everything else is refused. *)
Theorem C54_locations_refuses root demand k capacity xs ys depot :
  ~ (exists d p0 ps, located demand xs ys depot d p0 ps /\ d <> [] /\ 1 <= k /\ (0 < capacity)%Qc /\ Forall (fun x => 0 < x)%Qc d /\ (qsum_of d <= zq (Z.of_nat k) * capacity)%Qc) ->
  cvrp_locations root demand k capacity xs ys depot no_model = Throw.
Proof. apply locations_refuses. Qed.
Print Assumptions C54_locations_refuses.
(** And the model runs as it stands for. *)
Theorem C66_locations dbg root n k demand capacity xs ys depot d p0 ps : (forall z, (0 <= z)%Qc -> (0 <= root z)%Qc) -> located demand xs ys depot d p0 ps ->
  1 <= n -> (Z.of_nat (n * n) < 2147483648)%Z -> 1 <= k -> length d = n -> Forall (fun x => 0 < x)%Qc d -> (0 < capacity)%Qc -> (qsum_of d <= zq (Z.of_nat k) * capacity)%Qc ->
  exists m g obj, cvrp_locations root demand k capacity xs ys depot no_model = Ok ((5, seq 6 k), m) /\ history (build m) = Ok g /\ p_obj m = Some obj /\ faithful false dbg m g /\
    forall st, running false dbg m g st -> exists routes, length routes = k /\ Permutation (concat routes) (seq 0 n) /\
      (forall i, i < k -> pin_of (nodes false dbg m) g st (6 + i) = Some (still (numbers (nth i routes [])))) /\
      pin_of (nodes false dbg m) g st obj = Some (still [qsum_of (map (trip (distances root (p0 :: ps))) routes)]) /\
      exists sat, Forall2 (fun c b => pin_of (nodes false dbg m) g st c = Some (still [b2q b])) (p_cons m) sat /\
        (Forall (fun b => b = true) sat <-> Forall (fun r => GenSpec.total d r <= capacity)%Qc routes).
Proof.
  intros Hr HL Hn Hs Hk Hd Hp Hc Ht. rewrite (@locations_distances root k capacity demand xs ys depot d p0 ps) by (assumption || (intros ->; cbn in Hd; lia)).
  apply cvrp_run; try assumption; [|now apply distances_nonneg]. pose proof (distances_square root (p0 :: ps)) as M. cbn [length] in M. destruct HL as [El _]. now rewrite <- El, Hd in M.
Qed.
Print Assumptions C66_locations.

(** Customers at (4, 5) and (7, 9), the depot at (1, 1): distances 5, 10 and 5. *)
Definition ex_root (z : num) : num := zq (Z.sqrt (Qnum (this z) / Zpos (Qden (this z)))).
Definition ex_ps : list (num * num) := [(zq 4, zq 5); (zq 7, zq 9)].
Definition ex_p0 : num * num := (zq 1, zq 1).
Definition ex_d : list num := map zq [3; 4]%Z.
Example C54_ex_root z : (0 <= ex_root z)%Qc.
Proof. unfold ex_root. rewrite <- zq_0. pose proof (Z.sqrt_nonneg (Qnum (this z) / Zpos (Qden (this z)))). now apply zq_le. Qed.
Example C54_ex_located : located (0%Qc :: ex_d) (map zq [1; 4; 7]%Z) (map zq [1; 5; 9]%Z) None ex_d ex_p0 ex_ps /\ located ex_d (map zq [4; 7]%Z) (map zq [5; 9]%Z) (Some ex_p0) ex_d ex_p0 ex_ps /\
  distances ex_root (ex_p0 :: ex_ps) = map (map zq) [[0; 5; 10]; [5; 0; 5]; [10; 5; 0]]%Z /\ trip (distances ex_root (ex_p0 :: ex_ps)) [0; 1] = zq 20.
Proof.
  split; [split; [reflexivity|left; repeat split]|]. split; [split; [reflexivity|right; repeat split]|]. split; vm_compute; reflexivity.
Qed.
Example C54_ex_made : exists m, cvrp_locations ex_root ex_d 2 (zq 5) (map zq [4; 7]%Z) (map zq [5; 9]%Z) (Some ex_p0) no_model = Ok ((5, [6; 7]), m) /\
  (forall dv, dv 6 = map zq [0; 1]%Z -> dv 7 = [] -> objective m dv (zq 20)).
Proof.
  destruct (C54_locations ex_root 2 2 ex_d (zq 5) (map zq [4; 7]%Z) (map zq [5; 9]%Z) (Some ex_p0) ex_d ex_p0 ex_ps) as (m & E & _ & _ & H); try (lia || reflexivity).
  - intros z _. apply C54_ex_root.
  - apply C54_ex_located.
  - repeat constructor.
  - discriminate.
  - exists m. split; [exact E|]. intros dv H6 H7. destruct (H dv [[0; 1]; []]) as [O _]; [reflexivity|reflexivity| |].
    + intros [|[|i]] Hi; [exact H6|exact H7|lia].
    + replace (zq 20) with (qsum_of (map (trip (distances ex_root (ex_p0 :: ex_ps))) [[0; 1]; []])) by (vm_compute; reflexivity). exact O.
Qed.
(** A depot given although the first demand is 0, or not given although it is not. *)
Example C54_ex_refused : cvrp_locations ex_root (0%Qc :: ex_d) 2 (zq 5) (map zq [1; 4; 7]%Z) (map zq [1; 5; 9]%Z) (Some ex_p0) no_model = Throw /\
  cvrp_locations ex_root ex_d 2 (zq 5) (map zq [4; 7]%Z) (map zq [5; 9]%Z) None no_model = Throw.
Proof. split; vm_compute; reflexivity. Qed.
