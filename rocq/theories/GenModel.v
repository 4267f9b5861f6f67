(** Models of the generators (dwave/optimization/generators.py).  Arrays of numbers are lists, or lists
    of rows; [model.lock()] at the end and the error messages are left out.  Every generator returns its
    model and, for reference, its decision symbols. *)
From Verif Require Import Base Num SliceModel BasicModel NaryModel ReduceModel BoundsModel PyModel.
Local Open Scope Z_scope.

Definition zlen {A} (l : list A) : Z := Z.of_nat (length l).
Definition unless (c : bool) : py unit := if c then raise else ret tt.

(** [_require], generators.py:40-87: a matrix (ragged rows cannot be coerced) without negative entries,
    its numbers of rows and columns; [[]] is one row without columns. *)
Definition require_matrix (D : list (list num)) : py (Z * Z) :=
  match D with
  | [] => ret (1, 0)
  | r :: _ =>
      if forallb (fun s => (length s =? length r)%nat) D then
        if forallb (forallb (fun x => negb (qltb x 0%Qc))) D then ret (zlen D, zlen r) else raise
      else raise
  end.
Definition require_square (D : list (list num)) : py Z :=
  do (r, c) <- require_matrix D ; if r =? c then ret r else raise.
Definition require_vector (w : list num) : py unit := unless (existsb (fun x => qltb x 0%Qc) w).

(** [traveling_salesperson], 1012-1104. *)
Definition traveling_salesperson (D : list (list num)) : py nat :=
  do n <- require_square D ;
  do cities <- list_var n ;
  do d <- constant [n; n] (concat D) ;
  do a <- getitem cities [PSlice None (Some (-1)) None] ;
  do b <- getitem cities [PSlice (Some 1) None None] ;
  do itinerary <- getitem d [PArr a; PArr b] ;
  do a <- getitem cities [PInt (-1)] ;
  do b <- getitem cities [PInt 0] ;
  do return_to_origin <- getitem d [PArr a; PArr b] ;
  do a <- red RAdd itinerary ;
  do b <- red RAdd return_to_origin ;
  do travel <- binop BPlus a b ;
  do _ <- minimize travel ;
  ret cities.

(** [quadratic_assignment], 954-1009. *)
Definition quadratic_assignment (D F : list (list num)) : py nat :=
  do n <- require_square D ;
  do k <- require_square F ;
  do _ <- unless (negb (n =? k)) ;
  do facilities <- list_var n ;
  do d <- constant [n; n] (concat D) ;
  do f <- constant [n; n] (concat F) ;
  do rows <- getitem d [PArr facilities; full] ;
  do p <- getitem rows [full; PArr facilities] ;
  do t <- binop BMul f p ;
  do s <- red RAdd t ;
  do _ <- minimize s ;
  ret facilities.

(** [knapsack], 887-951. *)
Definition knapsack (values weights : list num) (capacity : num) : py nat :=
  do _ <- require_vector weights ;
  do _ <- require_vector values ;
  let n := zlen weights in
  do _ <- unless (negb (zlen values =? n)) ;
  do _ <- unless (qleb capacity 0%Qc) ;
  do w <- constant [n] weights ;
  do v <- constant [n] (map Qcopp values) ;
  do c <- constant [] [capacity] ;
  do items <- set_var n ;
  do a <- getitem w [PArr items] ;
  do a <- red RAdd a ;
  do over <- binop BLe a c ;
  do _ <- add_constraint over ;
  do a <- getitem v [PArr items] ;
  do a <- red RAdd a ;
  do _ <- minimize a ;
  ret items.

(** [bin_packing], 152-212. *)
Definition bin_packing (weights : list num) (capacity : num) : py (nat * list nat) :=
  do _ <- require_vector weights ;
  let n := zlen weights in
  do _ <- unless (n =? 0) ;
  do _ <- unless (qleb capacity 0%Qc) ;
  do _ <- unless (existsb (fun x => qltb capacity x) weights) ;
  do w <- constant [n] weights ;
  do c <- constant [] [capacity] ;
  do (main, bins) <- disjoint_bit_sets n (Z.to_nat n) ;
  do _ <- pfor bins (fun _ b =>
            do a <- binop BMul b w ; do a <- red RAdd a ; do a <- binop BLe a c ; add_constraint a) tt ;
  do one <- constant [] [1%Qc] ;
  do obj <- constant [] [0%Qc] ;
  do obj <- pfor bins (fun obj b => do a <- red RAdd b ; do a <- ge a one ; iadd obj a) obj ;
  do _ <- minimize obj ;
  ret (main, bins).

(** [capacitated_vehicle_routing], 215-410, from the distances between customers, from and to the
    depot, and the customers' demands: 367-410. *)
Definition cvrp_core (demand : list num) (vehicles : nat) (capacity : num) (dist : list (list num)) (out back : list num) : py (nat * list nat) :=
  let n := zlen demand in
  do _ <- unless (existsb (fun x => qeqb x 0%Qc) demand) ;
  do customer_dist <- constant [n; n] (concat dist) ;
  do depot_dist <- constant [n] out ;
  do depot_return <- constant [n] back ;
  do dem <- constant [n] demand ;
  do cap <- constant [] [capacity] ;
  do (main, routes) <- disjoint_lists n vehicles ;
  do costs <- pfor routes (fun costs r =>
            do a <- getitem r [PSlice None (Some 1) None] ;
            do a <- getitem depot_dist [PArr a] ; do s1 <- red RAdd a ;
            do a <- getitem r [PSlice (Some (-1)) None None] ;
            do a <- getitem depot_return [PArr a] ; do s2 <- red RAdd a ;
            do a <- getitem r [PSlice None (Some (-1)) None] ;
            do b <- getitem r [PSlice (Some 1) None None] ;
            do a <- getitem customer_dist [PArr a; PArr b] ; do s3 <- red RAdd a ;
            do a <- getitem dem [PArr r] ; do a <- red RAdd a ; do a <- binop BLe a cap ;
            do _ <- add_constraint a ;
            ret (costs ++ [s1; s2; s3])) [] ;
  do total <- several BPlus NAdd costs ;
  do _ <- minimize total ;
  ret (main, routes).
(** The same from a matrix of distances whose row and column 0 are the depot's, 276-318. *)
Definition capacitated_vehicle_routing (demand : list num) (vehicles : nat) (capacity : num) (D : list (list num)) : py (nat * list nat) :=
  do _ <- unless (vehicles =? 0)%nat ;
  do _ <- unless (qleb capacity 0%Qc) ;
  do _ <- require_vector demand ;
  do _ <- unless (qltb (zq (Z.of_nat vehicles) * capacity)%Qc (fold_right Qcplus 0%Qc demand)) ;
  do n <- require_square D ;
  do _ <- unless (n <? 2) ;
  do _ <- unless (negb (n =? zlen demand)) ;
  do _ <- unless (negb (qeqb (hd 0%Qc demand) 0%Qc)) ;
  cvrp_core (tl demand) vehicles capacity (map (fun r => tl r) (tl D)) (tl (hd [] D)) (map (hd 0%Qc) (tl D)).

(** [capacitated_vehicle_routing_with_time_windows], 413-655. *)
Definition list_qeqb (a b : list num) : bool := (length a =? length b)%nat && forallb (fun p => qeqb (fst p) (snd p)) (combine a b).
Definition the {A} (o : option A) : py A := match o with Some x => ret x | None => raise end.
Section TimeWindows.
Variables t_from t_to t_cust t_open t_close t_service one helper : nat.
(** One turn of the loop 606-630: the [i]-th stop of route [r], of size [z]; the nodes of the times of
    leaving so far (last first) and of the windows.  [time_leaving] and [serving_time] are not used later. *)
Definition tw_slot (r z : nat) (lw : list nat * list nat) (i : nat) : py (list nat * list nat) :=
  let '(leaving, windows) := lw in
  do h <- getitem helper [PInt (Z.of_nat i)] ;
  do h <- binop BPlus h one ;
  do cond <- ge z h ;
  do (idx, serving) <- (if (i =? 0)%nat then
      do a <- getitem r [PSlice None (Some 1) None] ; do a <- red RAdd a ;
      do l <- getitem helper [PInt (-1)] ;
      do idx <- where_ cond a l ;
      do a <- getitem t_from [PArr idx] ; do b <- getitem t_open [PArr idx] ;
      do a <- several BMax NMax [a; b] ;
      ret (idx, a)
    else
      do a <- getitem r [PSlice (Some (Z.of_nat i - 1)) (Some (Z.of_nat i)) None] ; do a <- red RAdd a ;
      do l <- getitem helper [PInt (-1)] ;
      do prev <- where_ cond a l ;
      do a <- getitem r [PSlice (Some (Z.of_nat i)) (Some (Z.of_nat i + 1)) None] ; do a <- red RAdd a ;
      do l <- getitem helper [PInt (-1)] ;
      do idx <- where_ cond a l ;
      do a <- getitem t_cust [PArr prev; PArr idx] ;
      do last <- the (hd_error leaving) ;
      do a <- binop BPlus last a ;
      do b <- getitem t_open [PArr idx] ;
      do a <- several BMax NMax [a; b] ;
      ret (idx, a)) ;
  do s <- getitem t_service [PArr idx] ;
  do l <- binop BPlus serving s ;
  do c <- getitem t_close [PArr idx] ;
  do w <- binop BLe l c ;
  ret (l :: leaving, windows ++ [w]).
(** One turn of the loop 601-639: the node of the time of returning. *)
Definition tw_vehicle (maxloc : Z) (back : list nat) (rz : nat * nat) : py (list nat) :=
  let '(r, z) := rz in
  do (leaving, windows) <- pfor (seq 0 (Z.to_nat maxloc)) (tw_slot r z) ([], []) ;
  do cond <- ge z one ;
  do a <- getitem r [PSlice (Some (-1)) None None] ; do a <- red RAdd a ;
  do l <- getitem helper [PInt (-1)] ;
  do last_cust <- where_ cond a l ;
  do l <- the (hd_error leaving) ;
  do a <- getitem t_to [PArr last_cust] ;
  do a <- binop BPlus l a ;
  do _ <- pfor windows (fun _ c => add_constraint c) tt ;
  ret (back ++ [a]).
(** One turn of the loop 646-649. *)
Definition tw_cost (costs : list nat) (r : nat) : py (list nat) :=
  do a <- getitem r [PSlice None (Some 1) None] ;
  do a <- getitem t_from [PArr a] ; do s1 <- red RAdd a ;
  do a <- getitem r [PSlice (Some (-1)) None None] ;
  do a <- getitem t_to [PArr a] ; do s2 <- red RAdd a ;
  do a <- getitem r [PSlice (Some 1) None None] ;
  do b <- getitem r [PSlice None (Some (-1)) None] ;
  do a <- getitem t_cust [PArr a; PArr b] ; do s3 <- red RAdd a ;
  ret (costs ++ [s1; s2; s3]).
(** The rest, 590-655. *)
Definition tw_rest (maxloc : Z) (depo_close main : nat) (routes nclients : list nat) : py (nat * list nat) :=
  do back <- pfor (combine routes nclients) (tw_vehicle maxloc) [] ;
  do bc <- pfor back (fun cs b => do a <- binop BLe b depo_close ; ret (cs ++ [a])) [] ;
  do _ <- pfor bc (fun _ c => add_constraint c) tt ;
  do costs <- pfor routes tw_cost [] ;
  do total <- several BPlus NAdd costs ;
  do _ <- minimize total ;
  ret (main, routes).
End TimeWindows.
Definition cvrp_time_windows (demand : list num) (vehicles : nat) (capacity : num) (T : list (list num)) (open close service : list num)
  : py (nat * list nat) :=
  do _ <- unless (vehicles =? 0)%nat ;
  do _ <- unless (qleb capacity 0%Qc) ;
  do _ <- require_vector demand ;
  do _ <- unless (qltb (zq (Z.of_nat vehicles) * capacity)%Qc (fold_right Qcplus 0%Qc demand)) ;
  do n1 <- require_square T ;
  do _ <- require_vector open ; do _ <- require_vector close ; do _ <- require_vector service ;
  do _ <- unless (n1 <? 2) ;
  do _ <- unless (negb ((n1 =? zlen demand) && (n1 =? zlen open) && (n1 =? zlen close) && (n1 =? zlen service))) ;
  do _ <- unless (negb (qeqb (hd 0%Qc demand) 0%Qc)) ;
  do _ <- unless (existsb (fun x => qeqb x 0%Qc) (tl demand)) ;
  let n := zlen (tl demand) in
  (* 523-562: arrays with an extra last entry *)
  let dist := map (fun r => tl r ++ [0%Qc]) (tl T) ++ [repeat 0%Qc (Z.to_nat n1)] in
  let from_depo := tl (hd [] T) ++ [0%Qc] in
  let to_depo := map (hd 0%Qc) (tl T) ++ [0%Qc] in
  do (t_from, t_to) <- (if list_qeqb from_depo to_depo
                        then do c <- constant [n1] from_depo ; ret (c, c)
                        else do c <- constant [n1] from_depo ; do d <- constant [n1] to_depo ; ret (c, d)) ;
  do t_cust <- constant [n1; n1] (concat dist) ;
  do t_open <- constant [n1] (tl open ++ [0%Qc]) ;
  do t_close <- constant [n1] (tl close ++ [zq 1000000]) ;
  do t_service <- constant [n1] (tl service ++ [0%Qc]) ;
  do dem <- constant [n] (tl demand) ;
  do cap <- constant [] [capacity] ;
  do depo_close <- constant [] [hd 0%Qc close] ;
  do one <- constant [] [1%Qc] ;
  do (main, routes) <- disjoint_lists n vehicles ;
  (* 571-577 *)
  do cc <- pfor routes (fun cs r => do a <- getitem dem [PArr r] ; do a <- red RAdd a ; do a <- binop BLe a cap ; ret (cs ++ [a])) [] ;
  do _ <- pfor cc (fun _ c => add_constraint c) tt ;
  do helper <- constant [n1] (map (fun i => zq (Z.of_nat i)) (seq 0 (Z.to_nat n1))) ;
  do nclients <- pfor routes (fun cs r => do z <- size r ; match z with inr z => ret (cs ++ [z]) | inl _ => raise end) [] ;
  (* 587-592 *)
  let maxloc := 3 * Z.quot n (Z.of_nat vehicles) in
  do maxc <- constant [] [zq maxloc] ;
  do mc <- pfor nclients (fun cs z => do a <- binop BLe z maxc ; ret (cs ++ [a])) [] ;
  do _ <- pfor mc (fun _ c => add_constraint c) tt ;
  tw_rest t_from t_to t_cust t_open t_close t_service one helper maxloc depo_close main routes nclients.

(** [flow_shop_scheduling], 658-750.  [op m j]: [times[m, :][order[j]]]. *)
Section FlowShop.
Variables times order : nat.
Definition op (m j : nat) : py nat :=
  do row <- getitem times [PInt (Z.of_nat m); full] ;
  do j <- getitem order [PInt (Z.of_nat j)] ;
  getitem row [PArr j].
(** The first machine, 714-722; the end times so far, last first. *)
Definition first_machine (jobs : nat) : py (list nat) :=
  pfor (seq 0 jobs) (fun ends j =>
    match ends with
    | [] => do t <- op 0 j ; ret [t]
    | last :: _ => do t <- op 0 j ; do e <- iadd t last ; ret (e :: ends)
    end) [].
(** The other machines, 724-735; [prev] holds the previous machine's end times by job. *)
Definition next_machine (m : nat) (prev : list nat) : py (list nat) :=
  pfor (combine (seq 0 (length prev)) prev) (fun ends jp =>
    let '(j, p) := jp in
    match ends with
    | [] => do t <- op m j ; do e <- iadd p t ; ret [e]
    | last :: _ => do x <- several BMax NMax [p; last] ; do t <- op m j ; do e <- iadd x t ; ret (e :: ends)
    end) [].
End FlowShop.
Definition flow_shop_scheduling (P : list (list num)) : py nat :=
  do (machines, jobs) <- require_matrix P ;
  do _ <- unless ((machines =? 0) || (jobs =? 0)) ;
  do times <- constant [machines; jobs] (concat P) ;
  do order <- list_var jobs ;
  do ends <- first_machine times order (Z.to_nat jobs) ;
  do ends <- pfor (seq 1 (Z.to_nat machines - 1)) (fun ends m => next_machine times order m (rev ends)) ends ;
  do makespan <- the (hd_error ends) ;
  do _ <- minimize makespan ;
  ret order.

(** [job_shop_scheduling], 753-884.  Times and machines are integers. *)
Definition zmatrix (D : list (list Z)) : list num := map zq (concat D).
Definition pairs (n : nat) : list (nat * nat) := flat_map (fun i => map (fun j => (i, j)) (seq (S i) (n - S i))) (seq 0 n).
(** Row by row, [machines] is a permutation of [range(num_machines)], 828-833. *)
Definition row_ok (k : nat) (row : list Z) : bool :=
  (length row =? k)%nat && forallb (fun i => existsb (Z.eqb (Z.of_nat i)) row) (seq 0 k).
Definition job_shop_scheduling (times machines : list (list Z)) (bound : option Z) : py nat :=
  do (jobs, k) <- require_matrix (map (map zq) times) ;
  do (jobs', k') <- require_matrix (map (map zq) machines) ;
  do _ <- unless (negb ((jobs =? jobs') && (k =? k'))) ;
  do _ <- unless ((jobs =? 0) || (k =? 0)) ;
  (* 813-824 *)
  let machines := if forallb (forallb (fun z => negb (z =? 0))) machines then map (map (fun z => z - 1)) machines else machines in
  do _ <- unless (negb (forallb (row_ok (Z.to_nat k)) machines)) ;
  do upper <- (match bound with
               | None => ret (fold_right Z.add 0 (concat times))
               | Some u => if u <? 1 then raise else ret u
               end) ;
  do t <- constant [jobs; k] (zmatrix times) ;
  do mach <- constant [jobs; k] (zmatrix machines) ;
  do start <- integer [jobs; k] 0 upper ;
  do ends <- binop BPlus start t ;
  do makespan <- red RMax ends ;
  do _ <- minimize makespan ;
  do _ <- pfor (seq 0 (Z.to_nat jobs)) (fun _ j =>
            let j := Z.of_nat j in
            do a <- getitem mach [PInt j; PSlice None (Some (-1)) None] ;
            do e <- getitem ends [PInt j; PArr a] ;
            do a <- getitem mach [PInt j; PSlice (Some 1) None None] ;
            do s <- getitem start [PInt j; PArr a] ;
            do c <- binop BLe e s ; do c <- red RAnd c ; add_constraint c) tt ;
  let ps := pairs (Z.to_nat jobs) in
  do u <- constant [zlen ps] (map (fun p => zq (Z.of_nat (fst p))) ps) ;
  do v <- constant [zlen ps] (map (fun p => zq (Z.of_nat (snd p))) ps) ;
  do a <- getitem ends [PArr u; full] ; do b <- getitem start [PArr v; full] ; do c1 <- binop BLe a b ;
  do a <- getitem ends [PArr v; full] ; do b <- getitem start [PArr u; full] ; do c2 <- binop BLe a b ;
  do c <- binop BOr c1 c2 ; do c <- red RAnd c ;
  do _ <- add_constraint c ;
  ret start.
