(** Model of writing and reading models: _model.pyx, [_Graph.into_file] 236-359, [from_file] 111-216, and
    [Symbol._state_into_zipfile], [_state_from_zipfile] 1443-1472.  The zip archive is a record of its
    entries, JSON numbers are integers.  A class name determines whether the symbol is a decision; what
    else a symbol writes into its directory, and its constructor's use of it, are left out: each entry
    creates one node with the listed predecessors. *)
From Verif Require Import Base SliceModel GraphModel LockModel.
Local Open Scope Z_scope.

(** ** The header, 274-304: the bytes before the zip file. *)
Definition magic : list Z := [68; 87; 78; 76]. (* "DWNL" *)
Definition version : list Z := [0; 1].
(** [struct.pack('<I', n)]: an exception unless it fits. *)
Definition pack32 (n : Z) : option (list Z) :=
  if (0 <=? n) && (n <? 4294967296) then Some [n mod 256; n / 256 mod 256; n / 65536 mod 256; n / 16777216 mod 256] else None.
Definition unpack32 (b : list Z) : option Z :=
  match b with [b0; b1; b2; b3] => Some (b0 + 256 * b1 + 65536 * b2 + 16777216 * b3) | _ => None end.
Definition spaces (n : Z) : list Z := repeat 32 (Z.to_nat n).
Definition write_header (data : list Z) : option (list Z) :=
  let len := Z.of_nat (length data) in
  let padding := spaces (64 - (len + 4 + 2 + 4) mod 64) in
  match pack32 (len + Z.of_nat (length padding)) with
  | Some l => Some (magic ++ version ++ l ++ data ++ padding)
  | None => None
  end.
(** The reader, 130-143; the second component is what remains of the file. *)
Definition read_header (bytes : list Z) : option (list Z * list Z) :=
  if list_eq_dec Z.eq_dec (firstn 4 bytes) magic then
    match unpack32 (firstn 4 (skipn 6 bytes)) with
    | None => None
    | Some n => let rest := skipn 10 bytes in Some (firstn (Z.to_nat n) rest, skipn (Z.to_nat n) rest)
    end
  else None.

(** ** The archive *)
Section Io.
Context {S : Type}.
Variable ninit : nat -> list S -> S.
(** The class of the symbol of a node. *)
Variable kind : nat -> nat.
(** Whether symbols of a class are decisions. *)
Variable decides : nat -> bool.

Record archive := Archive {
  a_kinds : list nat;                 (* nodetypes.txt *)
  a_adj : list (Z * list Z);          (* adj.adjlist *)
  a_obj : option Z;                   (* objective.json *)
  a_cons : list Z;                    (* constraints.json *)
  a_nstates : Z;                      (* num_states of info.json *)
  a_states : list (nat * nat * S) }.  (* nodes/<node>/states/<i> *)

Definition topo (m : model S) (n : nat) : Z := tkey (gtopo (mg m)) n.

(** [has_state], _model.pyx:751-783, of a symbol with an index. *)
Definition the_state (m : model S) (n i : nat) : option S :=
  match nth_error (mstates m) i with Some st => stored m st n | None => None end.

(** [into_file] of a locked model. *)
Definition write (m : model S) (max_num_states : Z) (only_decision : bool) : archive :=
  let num_states := Z.max 0 (Z.min (Z.of_nat (length (mstates m))) max_num_states) in
  let stop := if only_decision then num_decisions m else length (gnodes (mg m)) in
  let nodes := firstn stop (gnodes (mg m)) in
  Archive (map kind nodes)
          (map (fun n => (topo m n, map (topo m) (oget (gpred (mg m)) n))) nodes)
          (match gobj (mg m) with Some n => if topo m n <? Z.of_nat stop then Some (topo m n) else None | None => None end)
          (filter (fun t => t <? Z.of_nat stop) (map (topo m) (gcons (mg m))))
          num_states
          (flat_map (fun n => flat_map (fun i => match the_state m n i with Some x => [(Z.to_nat (topo m n), i, x)] | None => [] end)
                                       (seq 0 (Z.to_nat num_states)))
                    (firstn (num_decisions m) (gnodes (mg m)))).
(** [into_file]: an unlocked model is locked for the duration. *)
Definition into_file (m : model S) (max_num_states : Z) (only_decision : bool) : option (model S * option archive) :=
  if is_locked m then Some (m, Some (write m max_num_states only_decision))
  else match lock m with
       | Some (m', true) => Some (unlock m', Some (write m' max_num_states only_decision))
       | Some (m', false) => Some (m', None)
       | None => None
       end.

(** [nodes()[id]] of [std::span]: undefined out of range. *)
Definition node_at (m : model S) (id : Z) : res nat :=
  if id <? 0 then UB else match nth_error (gnodes (mg m)) (Z.to_nat id) with Some n => Ok n | None => UB end.

(** One line, 156-185. *)
Fixpoint read_preds (m : model S) (node_id : Z) (ids : list Z) : res (list nat) :=
  match ids with
  | [] => Ok []
  | p :: r => if negb ((0 <=? p) && (p <? node_id)) then Throw
              else rbind (node_at m p) (fun n => rbind (read_preds m node_id r) (fun l => Ok (n :: l)))
  end.
(** An operation on the model that raises no exception. *)
Definition perform (m : model S) (o : mop S) : res (model S) :=
  match m_step ninit kind m o with Some (m', true) => Ok m' | Some (_, false) => Throw | None => UB end.
Definition read_line (mk : model S * Z) (line : nat * (Z * list Z)) : res (model S * Z) :=
  let '(m, lineno) := mk in
  let '(k, (node_id, ids)) := line in
  if negb (node_id =? lineno) then Throw
  else rbind (read_preds m node_id ids) (fun ps =>
       rbind (match decides k, ps with
              | true, [] => perform m MDecision
              | true, _ => Throw
              | false, _ => perform m (MAdd ps)
              end) (fun m => Ok (m, lineno + 1))).

(** [from_file] after the header. *)
Definition read (a : archive) : res (model S) :=
  rbind (rfold read_line (m_empty, 0) (combine (a_kinds a) (a_adj a))) (fun '(m, _) =>
  rbind (match a_obj a with
         | Some id => if id >=? Z.of_nat (length (gnodes (mg m))) then Throw else rbind (node_at m id) (fun n => perform m (MObjective n))
         | None => Ok m
         end) (fun m =>
  rbind (rfold (fun m id => rbind (node_at m id) (fun n => perform m (MConstraint n))) m (a_cons a)) (fun m =>
  if a_nstates a <? 0 then Throw else
  if 0 <? a_nstates a then
    rbind (perform m (MResize (Z.to_nat (a_nstates a)))) (fun m =>
    rfold (fun m n => rfold (fun m i =>
        match find (fun '(k, j, _) => Z.eqb (Z.of_nat k) (topo m n) && Nat.eqb j i) (a_states a) with
        | Some (_, _, x) => perform m (MSet n i (Some x))
        | None => Ok m
        end) m (seq 0 (Z.to_nat (a_nstates a)))) m (firstn (num_decisions m) (gnodes (mg m))))
  else Ok m))).
End Io.
Arguments archive : clear implicits.
