(** The optimisation problems, independently of the models that encode them. *)
From Verif Require Import Base Num NarySpec.
Local Open Scope Qc_scope.

Definition entry (D : list (list num)) (i j : nat) : num := nth j (nth i D []) 0.
Definition matrix (r c : nat) (D : list (list num)) : Prop := length D = r /\ Forall (fun row => length row = c) D.
Definition nonnegative (l : list num) : Prop := Forall (fun x => 0 <= x) l.
Definition numbers (l : list nat) : list num := map (fun i => zq (Z.of_nat i)) l.

(** The length of a path, and of a closed tour. *)
Fixpoint path (D : list (list num)) (l : list nat) : num :=
  match l with a :: ((b :: _) as t) => entry D a b + path D t | _ => 0 end.
Definition tour (D : list (list num)) (l : list nat) : num := path D l + entry D (last l O) (hd O l).

(** Facility [i] is at location [nth i p]. *)
Definition assignment_cost (n : nat) (D F : list (list num)) (p : list nat) : num :=
  qsum_of (map (fun i => qsum_of (map (fun j => entry F i j * entry D (nth i p O) (nth j p O)) (seq 0 n))) (seq 0 n)).

Definition total (w : list num) (items : list nat) : num := qsum_of (map (fun i => nth i w 0) items).

(** Bins as sets of items; how many are not empty. *)
Definition used (bins : list (list nat)) : num := zq (Z.of_nat (length (filter (fun b => match b with [] => false | _ => true end) bins))).

(** A route from the depot through customers and back, and a set of routes serving every customer once. *)
Definition route (out back : list num) (D : list (list num)) (r : list nat) : num :=
  match r with [] => 0 | a :: _ => nth a out 0 + path D r + nth (last r O) back 0 end.

(** Flow shop: completion times of the jobs, in their order, on one machine, given when they leave the
    previous one ([prev]) and the previous job leaves this one ([free]). *)
Fixpoint machine (free : num) (prev work : list num) : list num :=
  match prev, work with
  | p :: prev', w :: work' => let e := qmax p free + w in e :: machine e prev' work'
  | _, _ => []
  end.
(** All machines: [P] has a row per machine, [order] says which job is served when. *)
Fixpoint machines (order : list nat) (prev : list num) (P : list (list num)) : list num :=
  match P with
  | [] => prev
  | row :: P' => machines order (machine 0 prev (map (fun j => nth j row 0) order)) P'
  end.
Definition makespan (P : list (list num)) (order : list nat) : num := last (machines order (map (fun _ => 0) order) P) 0.
(** A set of items as [n] bits. *)
Definition bits (n : nat) (b : list nat) : list num := map (fun j => b2q (existsb (Nat.eqb j) b)) (seq 0 n).
(** The same in a matrix whose first row and column are the depot's: customer [i] has row [S i]. *)
Definition trip (D : list (list num)) (r : list nat) : num := match r with [] => 0 | _ => tour D (O :: map S r) end.

(** Job shop: [M] lists, job by job, its machines in order; [T] and [S] hold, job by job and machine by
    machine, how long an operation takes and when it starts. *)
Definition ends (T S : list (list num)) (j k : nat) : num := entry S j k + entry T j k.
Definition in_order (T S : list (list num)) (M : list (list nat)) : Prop :=
  forall j p, (j < length M)%nat -> (p + 1 < length (nth j M []))%nat ->
    ends T S j (nth p (nth j M []) O) <= entry S j (nth (p + 1) (nth j M []) O).
Definition no_overlap (T S : list (list num)) (jobs machines : nat) : Prop :=
  forall u v k, (u < v)%nat -> (v < jobs)%nat -> (k < machines)%nat -> ends T S u k <= entry S v k \/ ends T S v k <= entry S u k.
Definition last_end (T S : list (list num)) (jobs machines : nat) (e : num) : Prop :=
  (exists j k, (j < jobs)%nat /\ (k < machines)%nat /\ e = ends T S j k) /\ forall j k, (j < jobs)%nat -> (k < machines)%nat -> ends T S j k <= e.

(** Flow shop in which the first job keeps all machines but the first until it has left the last, at [t]. *)
Definition held_machine (t : num) (prev work : list num) : list num :=
  match prev, work with _ :: prev', _ :: work' => t :: machine t prev' work' | _, _ => [] end.
Fixpoint held_machines (order : list nat) (t : num) (prev : list num) (P : list (list num)) : list num :=
  match P with
  | [] => prev
  | row :: P' => held_machines order t (held_machine t prev (map (fun j => nth j row 0) order)) P'
  end.
Definition held_makespan (P : list (list num)) (order : list nat) : num :=
  match P with
  | [] => 0
  | row :: P' => last (held_machines order (qsum_of (map (fun row => nth (hd O order) row 0) P))
                   (machine 0 (map (fun _ => 0) order) (map (fun j => nth j row 0) order)) P') 0
  end.

(** Time windows: when each stop of a route is left, starting at location [prev] at time [t]. *)
Fixpoint leaving (T : list (list num)) (open service : list num) (t : num) (prev : nat) (r : list nat) : list num :=
  match r with
  | [] => []
  | c :: r' => let l := qmax (t + entry T prev c) (nth c open 0) + nth c service 0 in l :: leaving T open service l c r'
  end.
(** Every stop is left in time, and the depot (location 0) is reached in time. *)
Definition on_time (T : list (list num)) (open close service : list num) (r : list nat) : Prop :=
  match r with
  | [] => True
  | _ => let ls := leaving T open service 0 O r in
         Forall2 (fun l c => l <= nth c close 0) ls r /\ last ls 0 + entry T (last r O) O <= nth O close 0
  end.
(** A trip whose customers are visited in the opposite order, but whose first and last leg are kept. *)
Definition reversed_trip (D : list (list num)) (r : list nat) : num :=
  match r with [] => 0 | _ => let l := map S r in entry D O (hd O l) + path D (rev l) + entry D (last l O) O end.
(** A proper instance: [n] customers and [k] vehicles; location 0 is the depot. *)
Definition tw_proper (n k : nat) (demand : list num) (capacity : num) (T : list (list num)) (open close service : list num) : Prop :=
  (1 <= n)%nat /\ (Z.of_nat n < 2147483647)%Z /\ (1 <= k)%nat /\ matrix (S n) (S n) T /\ Forall nonnegative T /\
  length open = S n /\ length close = S n /\ length service = S n /\ nonnegative open /\ nonnegative close /\ nonnegative service /\
  length demand = n /\ Forall (fun x => 0 < x) demand /\ 0 < capacity /\ qsum_of demand <= zq (Z.of_nat k) * capacity.
