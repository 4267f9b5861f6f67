(** Model of array iterators with masks: include/dwave-optimization/array.hpp:258-527.  Addresses are counted in doubles; memory is a partial map, and reading or
    writing outside of it is [UB]; that pointers may not even be formed far outside of an array is left out.  Iterators without mask are those of [ShapeModel.v]. *)
From Verif Require Import Base SliceModel BinaryModel ShapeModel MaskSpec.
Local Open Scope Z_scope.

Section Mask.
Variable V : Type.
(** Conversion of a double to [bool]: other than zero (so NaN is true). *)
Variable truth : V -> bool.
Definition memory := Z -> option V.
(** [MaskInfo], 509-523: where the mask and the fill value are. *)
Record maskinfo := Mask { mk_mask : Z; mk_fill : Z }.
(** [ptr_] with [shape_], and [mask_]: 503-527. *)
Record miter := MIter { mi : iter; mi_mask : option maskinfo }.
(** Constructors: contiguous 296-297, masked 304-308, strided 313-322. *)
Definition m_contiguous (p : Z) : miter := {| mi := {| it_ptr := p; it_shape := None |}; mi_mask := None |}.
Definition m_masked (data mask fill : Z) : miter := {| mi := {| it_ptr := data; it_shape := None |}; mi_mask := Some (Mask mask fill) |}.
Definition m_strided (p : Z) (shape strides : list Z) : miter := {| mi := it_begin false p shape strides; mi_mask := None |}.
(** [operator*], 333-338: the address it stands for. *)
Definition m_addr (m : memory) (it : miter) : res Z :=
  match mi_mask it with
  | Some k => match m (mk_mask k) with
              | Some b => Ok (if truth b then mk_fill k else it_ptr (mi it))
              | None => UB
              end
  | None => Ok (it_ptr (mi it))
  end.
Definition m_read (m : memory) (it : miter) : res V :=
  rbind (m_addr m it) (fun a => match m a with Some v => Ok v | None => UB end).
(** Assignment to [*it]. *)
Definition m_write (m : memory) (it : miter) (v : V) : res memory :=
  rbind (m_addr m it) (fun a => match m a with Some _ => Ok (fun b => if b =? a then Some v else m b) | None => UB end).
(** [operator++], [operator--], [operator+=], [operator-=], 347-403. *)
Definition m_inc (it : miter) : res miter :=
  match it_shape (mi it), mi_mask it with
  | Some _, Some _ => UB
  | None, Some k => Ok {| mi := {| it_ptr := it_ptr (mi it) + 1; it_shape := None |}; mi_mask := Some (Mask (mk_mask k + 1) (mk_fill k)) |}
  | _, None => Ok {| mi := it_inc (mi it); mi_mask := None |}
  end.
Definition m_dec (it : miter) : res miter :=
  match it_shape (mi it), mi_mask it with
  | Some _, Some _ => UB
  | None, Some k => Ok {| mi := {| it_ptr := it_ptr (mi it) - 1; it_shape := None |}; mi_mask := Some (Mask (mk_mask k - 1) (mk_fill k)) |}
  | _, None => Ok {| mi := it_dec (mi it); mi_mask := None |}
  end.
Definition m_add (it : miter) (n : Z) : res miter :=
  match it_shape (mi it), mi_mask it with
  | Some _, Some _ => UB
  | None, Some k => Ok {| mi := {| it_ptr := it_ptr (mi it) + n; it_shape := None |}; mi_mask := Some (Mask (mk_mask k + n) (mk_fill k)) |}
  | _, None => match it_add (mi it) n with Some i => Ok {| mi := i; mi_mask := None |} | None => UB end
  end.
Definition m_sub (it : miter) (n : Z) : res miter := m_add it (- n).
(** [operator[]], 345. *)
Definition m_index (m : memory) (it : miter) (n : Z) : res V := rbind (m_add it n) (m_read m).
(** [operator-] 415-482, [operator==] 484-486, [operator<] by [<=>] 494-496: masks play no part. *)
Definition m_diff (a b : miter) : res Z := match it_diff (mi a) (mi b) with Some (d, _, _) => Ok d | None => UB end.
Definition m_eqb (a b : miter) : bool := it_ptr (mi a) =? it_ptr (mi b).
Definition m_ltb (a b : miter) : res bool := match it_ltb (mi a) (mi b) with Some r => Ok r | None => UB end.
(** [for (; it != end; ++it)], collecting [*it]; [None]: [fuel] did not suffice. *)
Fixpoint m_collect (fuel : nat) (m : memory) (it last : miter) : option (res (list V)) :=
  if m_eqb it last then Some (Ok [])
  else match fuel with
       | O => None
       | S f => match m_read m it with
                | Ok v => match m_inc it with
                          | Ok it' => match m_collect f m it' last with
                                      | Some (Ok l) => Some (Ok (v :: l))
                                      | r => r
                                      end
                          | Throw => Some Throw
                          | UB => Some UB
                          end
                | Throw => Some Throw
                | UB => Some UB
                end
       end.
End Mask.
(** A sequence of [++], [--], [+=] and [-=], 347-403. *)
Definition move1 (it : miter) (o : move) : res miter := match o with Inc => m_inc it | Dec => m_dec it | Add n => m_add it n | Sub n => m_sub it n end.
Definition moved (it : miter) (os : list move) : res miter := rfold move1 it os.
