(** Model of [QuadraticModel] and [QuadraticModelNode] (src/nodes/quadratic_model.cpp:26-353,
    include/dwave-optimization/nodes/quadratic_model.hpp:29-90).  Simplifications: exact arithmetic (the
    compensated and extended sums are plain sums); negative variable indices, on which the code is
    undefined, are not represented; an index out of range is undefined. *)
From Verif Require Import Base SliceModel ShapeModel StateDataModel NodeSpec BinaryModel Num.

(** [neighborhood], quadratic_model.hpp:34-38, and the model, 69-72. *)
Record nbhd := Nbhd { nb_small : nat; nb_nbr : list nat; nb_bias : list Qc }.
Record qmodel := QModel { qm_n : nat; qm_lin : list Qc; qm_sq : list Qc; qm_adj : list nbhd }.

(** Constructor, 70-78. *)
Definition qm_new (n : Z) : res qmodel :=
  if (n <? 0)%Z then Throw
  else let k := Z.to_nat n in Ok (QModel k (repeat 0%Qc k) (repeat 0%Qc k) (repeat (Nbhd 0 [] []) k)).

(** [num_interactions], 82-88. *)
Definition qm_interactions (m : qmodel) : nat := fold_left (fun k a => k + nb_small a) (qm_adj m) 0.

Definition rget {A} (l : list A) (i : nat) : res A := match nth_error l i with Some a => Ok a | None => UB end.

(** [set_linear], [add_linear], [get_linear], 90-103. *)
Definition upd_linear (m : qmodel) (v : nat) (f : Qc -> Qc) : res qmodel :=
  rbind (rget (qm_lin m) v) (fun b => Ok (QModel (qm_n m) (lset v (f b) (qm_lin m)) (qm_sq m) (qm_adj m))).
Definition set_linear (m : qmodel) (v : nat) (b : Qc) : res qmodel := upd_linear m v (fun _ => b).
Definition add_linear (m : qmodel) (v : nat) (b : Qc) : res qmodel := upd_linear m v (fun o => (o + b)%Qc).
Definition get_linear (m : qmodel) (v : nat) : res Qc := rget (qm_lin m) v.

(** [std::lower_bound] on a sorted range: the first position not below [v]. *)
Fixpoint lower_bound (l : list nat) (v : nat) : nat :=
  match l with [] => 0 | x :: t => if x <? v then S (lower_bound t v) else 0 end.
Definition insert_pos {A} (k : nat) (x : A) (l : list A) : list A := firstn k l ++ x :: skipn k l.

(** [asymmetric_quadratic_ref], 106-121, followed by an assignment [f] through the reference. *)
Definition asym (a : nbhd) (u v : nat) (f : Qc -> Qc) : res nbhd :=
  let k := lower_bound (nb_nbr a) v in
  match nth_error (nb_nbr a) k with
  | Some w =>
      if w =? v
      then rbind (rget (nb_bias a) k) (fun b => Ok (Nbhd (nb_small a) (nb_nbr a) (lset k (f b) (nb_bias a))))
      else Ok (Nbhd (if v <? u then S (nb_small a) else nb_small a) (insert_pos k v (nb_nbr a)) (insert_pos k (f 0%Qc) (nb_bias a)))
  | None => Ok (Nbhd (if v <? u then S (nb_small a) else nb_small a) (insert_pos k v (nb_nbr a)) (insert_pos k (f 0%Qc) (nb_bias a)))
  end.
Definition upd_adj (m : qmodel) (u v : nat) (f : Qc -> Qc) : res qmodel :=
  rbind (rget (qm_adj m) u) (fun a => rbind (asym a u v f) (fun a' =>
    Ok (QModel (qm_n m) (qm_lin m) (qm_sq m) (lset u a' (qm_adj m))))).

(** [set_quadratic], [add_quadratic], 123-145, with their assertions. *)
Definition upd_quadratic (m : qmodel) (u v : nat) (f : Qc -> Qc) : res qmodel :=
  if (qm_n m <=? u) || (qm_n m <=? v) then UB
  else if u =? v then rbind (rget (qm_sq m) u) (fun b => Ok (QModel (qm_n m) (qm_lin m) (lset u (f b) (qm_sq m)) (qm_adj m)))
  else rbind (upd_adj m u v f) (fun m => upd_adj m v u f).
Definition set_quadratic (m : qmodel) (u v : nat) (b : Qc) : res qmodel := upd_quadratic m u v (fun _ => b).
Definition add_quadratic (m : qmodel) (u v : nat) (b : Qc) : res qmodel := upd_quadratic m u v (fun o => (o + b)%Qc).

(** [get_quadratic], 147-169. *)
Definition get_quadratic (m : qmodel) (u v : nat) : res Qc :=
  if (qm_n m <=? u) || (qm_n m <=? v) then UB
  else if u =? v then rget (qm_sq m) v
  else rbind (rget (qm_adj m) u) (fun a =>
    let k := lower_bound (nb_nbr a) v in
    match nth_error (nb_nbr a) k with
    | Some w => if w =? v then rget (nb_bias a) k else Ok 0%Qc
    | None => Ok 0%Qc
    end).

(** The array forms: [add_linear], [get_linear], [add_squares], [get_squares], 171-193. *)
Definition add_linears (m : qmodel) (l : list Qc) : res qmodel :=
  rfold (fun m i => rbind (rget l i) (fun b => add_linear m i b)) m (seq 0 (qm_n m)).
Definition get_linears (m : qmodel) : list Qc := firstn (qm_n m) (qm_lin m).
Definition add_squares (m : qmodel) (l : list Qc) : res qmodel :=
  rfold (fun m i => rbind (rget l i) (fun b => rbind (rget (qm_sq m) i) (fun o =>
           Ok (QModel (qm_n m) (qm_lin m) (lset i (o + b)%Qc (qm_sq m)) (qm_adj m))))) m (seq 0 (qm_n m)).
Definition get_squares (m : qmodel) : list Qc := firstn (qm_n m) (qm_sq m).
(** [add_quadratic] of three arrays, 195-205. *)
Definition add_quadratics (m : qmodel) (l : list (nat * nat * Qc)) : res qmodel :=
  rfold (fun m t => add_quadratic m (fst (fst t)) (snd (fst t)) (snd t)) m l.
(** [get_quadratic] into three arrays, 207-222. *)
Definition get_quadratics (m : qmodel) : list (nat * nat * Qc) :=
  flat_map (fun i => match nth_error (qm_adj m) i with
                     | Some a => flat_map (fun p => if i <? fst p then [(i, fst p, snd p)] else []) (combine (nb_nbr a) (nb_bias a))
                     | None => [] end) (seq 0 (qm_n m)).

(** [state[neighbors[j]] * biases[j]] summed over some neighbours onto [b], 230-232 and 246-248. *)
Fixpoint plus_nbrs (st : list Qc) (ns : list nat) (bs : list Qc) (b : Qc) : res Qc :=
  match ns, bs with
  | n :: ns', c :: bs' => rbind (rget st n) (fun x => plus_nbrs st ns' bs' (b + x * c)%Qc)
  | [], _ => Ok b
  | _ :: _, [] => UB
  end.
(** [get_effective_linear_bias], 224-235. *)
Definition eff_linear (m : qmodel) (u : nat) (st : list Qc) : res Qc :=
  rbind (rget (qm_lin m) u) (fun b => rbind (rget (qm_adj m) u) (fun a => plus_nbrs st (nb_nbr a) (nb_bias a) b)).
(** [compute_value], 237-254. *)
Definition compute_value (m : qmodel) (st : list Qc) : res Qc :=
  rfold (fun value i =>
    rbind (rget st i) (fun x =>
    if qeqb x 0 then Ok value
    else rbind (rget (qm_lin m) i) (fun l => rbind (rget (qm_sq m) i) (fun s => rbind (rget (qm_adj m) i) (fun a =>
         if length (nb_nbr a) <? nb_small a then UB else
         rbind (plus_nbrs st (firstn (nb_small a) (nb_nbr a)) (nb_bias a) (l + s * x)%Qc) (fun bias =>
           Ok (value + x * bias)%Qc)))))) 0%Qc (seq 0 (qm_n m)).

(** * The node *)
(** [QuadraticModelNodeData], 26-68. *)
Record qdata := QData { qd_old : Qc; qd_val : Qc; qd_prev : list Qc; qd_eff : list (nat * Qc) }.
Definition qd_commit (d : qdata) : qdata := QData (qd_val d) (qd_val d) (qd_prev d) [].
Definition qd_revert (d : qdata) : qdata :=
  QData (qd_old d) (qd_old d) (fold_left (fun st c => lset (fst c) (snd c) st) (qd_eff d) (qd_prev d)) [].
Definition qd_out (d : qdata) : pin Qc :=
  {| pview := [qd_val d]; pdiff := if qeqb (qd_old d) (qd_val d) then [] else [change 0 (qd_old d) (qd_val d)];
     psdiff := 0%Z |}.

(** Constructor, 265-275: whether the operand's shape is accepted. *)
Definition qn_new (m : qmodel) (s : list Z) : res unit :=
  if zlist_eqb s [Z.of_nat (qm_n m)] then Ok tt else Throw.

Section QuadNode.
Variable m : qmodel.
(** [initialize_state], 293-303. *)
Definition qn_init (pins : list (pin Qc)) : res qdata :=
  match pins with
  | [p] => rbind (compute_value m (pview p)) (fun v => Ok (QData v v (pview p) []))
  | _ => UB
  end.
(** Loop body of [propagate], 319-331 and 336-348. *)
Definition qn_step (cur : list Qc) (d : qdata) (u : update Qc) : res qdata :=
  rbind (rget cur (uidx u)) (fun neo => rbind (rget (qd_prev d) (uidx u)) (fun old =>
  if qeqb neo old then Ok d
  else rbind (get_quadratic m (uidx u) (uidx u)) (fun q => rbind (eff_linear m (uidx u) (qd_prev d)) (fun e =>
       Ok (QData (qd_old d) (qd_val d + (neo - old) * (q * (neo + old) + e))%Qc
                 (lset (uidx u) neo (qd_prev d)) (qd_eff d ++ [(uidx u, old)])))))).
(** [propagate], 305-353. *)
Definition qn_prop (d : qdata) (pins : list (pin Qc)) : res qdata :=
  match pins with [p] => rfold (qn_step (pview p)) d (pdiff p) | _ => UB end.

Definition qn_node : node Qc :=
  {| nd_shape := []; nd_pre := [[Z.of_nat (qm_n m)]]; nd_ST := qdata; nd_init := qn_init;
     nd_out := fun d _ => Some (qd_out d); nd_prop := qn_prop; nd_commit := qd_commit;
     nd_revert := fun d => Ok (qd_revert d) |}.
End QuadNode.
