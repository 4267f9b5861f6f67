(** NumPy's indexing by arrays and full slices, independently of the code. *)
From Verif Require Import Base ShapeSpec StateDataModel NodeSpec Num PermSpec.
Local Open Scope Z_scope.

(** Which axes are indexed by an array ([true]) and which by a full slice: the entries of a list that
    belong to the axes of one kind, and the list with the given entries for the axes of each kind. *)
Fixpoint pick {X} (b : bool) (spec : list bool) (l : list X) : list X :=
  match spec, l with
  | c :: spec', x :: l' => if Bool.eqb c b then x :: pick b spec' l' else pick b spec' l'
  | _, _ => []
  end.
Fixpoint merge (spec : list bool) (cs ss : list Z) : list Z :=
  match spec with
  | [] => []
  | true :: spec' => hd 0 cs :: merge spec' (tl cs) ss
  | false :: spec' => hd 0 ss :: merge spec' cs (tl ss)
  end.

(** The number of slices before the first array, and whether a slice separates two arrays. *)
Fixpoint lead (spec : list bool) : nat := match spec with false :: t => S (lead t) | _ => O end.
Definition separated (spec : list bool) : Prop :=
  exists i j k, (i < j < k)%nat /\ nth_error spec i = Some true /\ nth_error spec j = Some false /\ nth_error spec k = Some true.
(** The same, decided: an array after the slices that follow the first run of arrays. *)
Fixpoint after_run (spec : list bool) : list bool := match spec with true :: t => after_run t | _ => spec end.
Definition separatedb (spec : list bool) : bool := existsb (fun b => b) (after_run (skipn (lead spec) spec)).

(** A list with an entry put in, and one with the entry taken out. *)
Definition ins {X} (k : nat) (x : X) (l : list X) : list X := firstn k l ++ x :: skipn k l.
Definition del {X} (k : nat) (l : list X) : list X := firstn k l ++ skipn (S k) l.

(** The position of the axis of the index arrays in the result: in front if the arrays are separated,
    in the place of the first array otherwise. *)
Definition result_axis (spec : list bool) : nat := if separatedb spec then O else lead spec.

(** The current shape of an array of static shape [s]. *)
Definition shape_now (s : list Z) (len : nat) : list Z :=
  match s with d :: t => (if d <? 0 then Z.of_nat len / prod t else d) :: t | [] => [] end.

(** The coordinates selected by entry [j] of the index arrays, each below its bound. *)
Definition coords (bounds : list nat) (arrs : list (list num)) (j : nat) : option (list Z) :=
  all_some (map (fun bl => match nth_error (snd bl) j with
                           | Some x => option_map Z.of_nat (below (fst bl) x)
                           | None => None
                           end) (combine bounds arrs)).

(** The gathered array: at output index [o], the entry of the index arrays is the coordinate of [o] at
    [result_axis], and the other coordinates of [o] are those of the sliced axes.  [m] bounds the
    indices on axis 0 if the array's number of rows is state-dependent.  Index arrays without axes count as having
    one element. *)
Definition adv_fun (ashape : list Z) (m : nat) (spec : list bool) (inputs : list (list num)) : option (list num) :=
  match inputs with
  | a :: l0 :: ls =>
      let arrs := l0 :: ls in
      let sh := shape_now ashape (length a) in
      let bounds := match ashape with d :: t => (if d <? 0 then m else Z.to_nat d) :: map Z.to_nat t | [] => [] end in
      let n := length l0 in
      let k := result_axis spec in
      if forallb (fun l => (length l =? n)%nat) ls && (length ls + 1 =? length (pick true spec sh))%nat then
        match all_some (map (coords (pick true spec bounds) arrs) (seq 0 n)) with
        | Some css =>
            all_some (map (fun o => nth_error a (Z.to_nat (rank sh (merge spec (nth (Z.to_nat (nth k o 0)) css []) (del k o)))))
                          (all_idx (ins k (Z.of_nat n) (pick false spec sh))))
        | None => None
        end
      else None
  | _ => None
  end.

(** The moves: a constant does not change, the elements that the indices on axis 0 may reach are
    only changed (never removed and placed again) if the number of rows is state-dependent, and what is
    added to an index array is a whole number. *)
Definition adv_moves (konst : bool) (ashape : list Z) (m : nat) (spec : list bool) (pins : list (pin num)) : Prop :=
  match pins with
  | pa :: ps =>
      (konst = true -> pdiff pa = []) /\
      (dynamic ashape = true -> hd false spec = true ->
       Forall (fun u => Z.of_nat (uidx u) < Z.of_nat m * prod (tl ashape) -> is_change u) (pdiff pa)) /\
      Forall (fun p => Forall (fun u => uold u = None -> forall x, uval u = Some x -> exists z, x = zq z) (pdiff p)) ps
  | [] => False
  end.
