(** What the disjoint decisions are, independently of how they are stored. *)
From Verif Require Import Base Num CollectionsModel CollectionsSpec DisjointModel.

(** Bit sets: an assignment [owner] of items to sets.  State: committed and current. *)
Definition ind (w s : nat) : num := zq (if w =? s then 1 else 0).
Definition indicator (owner : list nat) (s : nat) : list num := map (fun w => ind w s) owner.
Definition bspec_op (n m : nat) (st : list nat * list nat) (o : bsop) : option (list nat * list nat) :=
  let (c, w) := st in
  match o with
  | BSwap f t e =>
      match nth_error w e with
      | Some x => if (f <? m) && (t <? m)
                  then Some (c, lset e (if x =? f then t else if x =? t then f else x) w)
                  else None
      | None => None
      end
  | BCommit => Some (w, w)
  | BRevert => Some (c, c)
  end.
Definition bspec_run n m st os := ofold (bspec_op n m) st os.

(** Lists: a sequence of sequences. *)
Definition dlspec_op (st : list (list num) * list (list num)) (o : dlop)
  : option (list (list num) * list (list num)) :=
  let (c, ls) := st in
  match o with
  | DRotate k dest src =>
      match nth_error ls k with
      | Some l => if (dest <? length l) && (src <? length l)
                  then Some (c, lset k (move_elem dest src l) ls) else None
      | None => None
      end
  | DSwap k i j =>
      match nth_error ls k with
      | Some l => if (i <? length l) && (j <? length l)
                  then Some (c, lset k (swap_elems i j l) ls) else None
      | None => None
      end
  | DPop f i t j =>
      match nth_error ls f, nth_error ls t with
      | Some lf, Some lt =>
          match nth_error lf i with
          | Some x =>
              if j <=? length lt then
                let ls1 := lset f (delete_at i lf) ls in
                match nth_error ls1 t with
                | Some l => Some (c, lset t (insert_at j x l) ls1)
                | None => None
                end
              else None
          | None => None
          end
      | _, _ => None
      end
  | DSet k values => match nth_error ls k with Some _ => Some (c, lset k values ls) | None => None end
  | DCommit => Some (ls, ls)
  | DRevert => Some (c, c)
  end.
Definition dlspec_run st os := ofold dlspec_op st os.

(** All items 0..n-1, each in exactly one list exactly once. *)
Definition list_partition (n : nat) (ls : list (list num)) : Prop :=
  NoDup (concat ls) /\
  forall x, In x (concat ls) <-> exists z, x = zq z /\ (0 <= z < Z.of_nat n)%Z.
