(** What the constructor should accept, and what it supports under changes. *)
From Verif Require Import Base SliceModel ShapeSpec NodeSpec Num AdvModel AdvSpec.
Local Open Scope Z_scope.

(** The smallest length that axis [k] may have: [least] is the smallest size of the array if its number
    of rows is state-dependent. *)
Definition axis_min (ashape : list Z) (least : option Z) (k : nat) : option Z :=
  match nth_error ashape k with
  | None => None
  | Some d => if (k =? 0)%nat && (d <? 0) then option_map (fun z => Z.quot z (prod (tl ashape))) least else Some d
  end.

(** Indices accepted for an array of shape [ashape]. *)
Record adv_accepts (ashape : list Z) (least : option Z) (ix : list aindex) (ishape : list Z) : Prop := {
  aa_len : length ix = length ashape;
  aa_ndim : (length ishape <= 1)%nat;
  (** There is an array, all arrays have the same shape, and the same source of their size. *)
  aa_same : exists src, (exists i lo hi, In (AArr ishape src i lo hi) ix) /\
            forall s src' i lo hi, In (AArr s src' i lo hi) ix -> s = ishape /\ (dynamic ishape = true -> src' = src);
  (** They are whole numbers that are indices of their axis. *)
  aa_range : forall k s src i lo hi, nth_error ix k = Some (AArr s src i lo hi) ->
             i = true /\ qleb 0%Qc lo = true /\ exists n, axis_min ashape least k = Some n /\ qltb hi (zq n) = true;
  (** A state-dependent number of rows is not sliced if the result's first axis is another one. *)
  aa_rows : dynamic ashape = true -> separated (map is_arr ix) -> hd false (map is_arr ix) = true;
  (** A state-dependent number of indices is only possible in front. *)
  aa_front : dynamic ishape = true -> separated (map is_arr ix) \/ hd false (map is_arr ix) = true }.

(** The shape of the result. *)
Definition adv_shape (ashape : list Z) (spec : list bool) (ishape : list Z) : list Z :=
  match ishape with
  | [] => pick false spec ashape
  | d :: _ => ins (result_axis spec) d (pick false spec ashape)
  end.

(** The uses under which changes are handled properly. *)
Definition adv_supported (konst : bool) (ashape : list Z) (spec : list bool) (ishape : list Z) : Prop :=
  hd false spec = true \/
  (dynamic ashape = false /\ (separated spec -> konst = true \/ ishape = [])) \/
  (lead spec = 1%nat /\ ~ separated spec /\ ishape <> []).

(** The value shown after the node is initialised from [ins] and one proposal is propagated. *)
Definition adv_run (strict dbg : bool) (A : adv) (konst : bool) (ins : list (list num)) (pins : list (pin num)) : res (option (list num)) :=
  let N := adv_node strict dbg A konst in
  rbind (nd_init N (map still ins)) (fun s => rbind (nd_prop N s pins) (fun s' => Ok (option_map (@pview num) (nd_out N s' pins)))).
