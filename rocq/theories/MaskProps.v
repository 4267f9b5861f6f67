(** C69: iterators with masks.  Modelled in [MaskModel.v]. *)
From Verif Require Import Base SliceModel BinaryModel ShapeModel MaskModel MaskSpec MaskProofs.
Local Open Scope Z_scope.

(** Whatever moves led to position [n], the element there is the fill value if the mask is true there, and that of the data otherwise; and so is the element [k] further on. *)
Theorem C69_read V (truth : V -> bool) m data mask fill l ks v os n x : holds V m data l -> holds V m mask ks -> m fill = Some v -> length ks = length l ->
  net os = Z.of_nat n -> nth_error (masked V truth v ks l) n = Some x ->
  exists it, moved (m_masked data mask fill) os = Ok it /\ m_read V truth m it = Ok x /\
    forall k y, 0 <= Z.of_nat n + k -> nth_error (masked V truth v ks l) (Z.to_nat (Z.of_nat n + k)) = Some y -> m_index V truth m it k = Ok y.
Proof. exact (@masked_read V truth m data mask fill l ks v os n x). Qed.
Print Assumptions C69_read.
(** The loop from the beginning up to an iterator at the end of the data, masked or not, meets exactly these, in order. *)
Theorem C69_loop V (truth : V -> bool) m data mask fill l ks v last : holds V m data l -> holds V m mask ks -> m fill = Some v -> length ks = length l ->
  it_ptr (mi last) = data + Z.of_nat (length l) ->
  forall fuel, (length l <= fuel)%nat -> m_collect V truth fuel m (m_masked data mask fill) last = Some (Ok (masked V truth v ks l)).
Proof. exact (@masked_loop V truth m data mask fill l ks v last). Qed.
Print Assumptions C69_loop.
(** Distance, equality and order are those of the positions. *)
Theorem C69_distance data mask fill os os' a b : moved (m_masked data mask fill) os = Ok a -> moved (m_masked data mask fill) os' = Ok b ->
  m_diff a b = Ok (net os - net os') /\ m_eqb a b = (net os =? net os') /\ m_ltb a b = Ok (net os <? net os').
Proof. exact (@masked_distance data mask fill os os' a b). Qed.
Print Assumptions C69_distance.
(** No iterator is masked and strided at once: whichever constructor it comes from and however it moved, the case left out by the operators does not occur.  (For strides as in C24.) *)
Theorem C69_never_both it os it' : (exists p, it = m_contiguous p) \/ (exists p k f, it = m_masked p k f) \/ (exists p shape strides, it = m_strided p shape strides) ->
  moved it os = Ok it' -> it_shape (mi it') = None \/ mi_mask it' = None.
Proof. exact (@never_both it os it'). Qed.
Print Assumptions C69_never_both.
Theorem C69_moves data mask fill os : exists it, moved (m_masked data mask fill) os = Ok it.
Proof. exact (@masked_moves data mask fill os). Qed.
Print Assumptions C69_moves.
(** Writing where the mask is false sets that element only. *)
Theorem C69_write V (truth : V -> bool) m data mask fill l ks v n x w : holds V m data l -> holds V m mask ks -> m fill = Some v -> length ks = length l ->
  apart_mem data (length l) mask fill -> nth_error ks n = Some x -> truth x = false ->
  exists it m', m_add (m_masked data mask fill) (Z.of_nat n) = Ok it /\ m_write V truth m it w = Ok m' /\
    holds V m' data (firstn n l ++ w :: skipn (S n) l) /\ holds V m' mask ks /\ m' fill = Some v.
Proof. exact (@masked_write V truth m data mask fill l ks v n x w). Qed.
Print Assumptions C69_write.
(** Writing where it is true sets the fill value, so every element under the mask. *)
Definition ex_mem : Z -> option bool := fun a => nth_error [true; false; false; true; true; false; false] (Z.to_nat a).
Theorem C69_write_refuted : exists (m : memory bool) data mask fill it it' m',
  m_add (m_masked data mask fill) 0 = Ok it /\ m_add (m_masked data mask fill) 1 = Ok it' /\ m_write bool (fun b => b) m it true = Ok m' /\
  m_read bool (fun b => b) m it' = Ok false /\ m_read bool (fun b => b) m' it' = Ok true.
Proof. exists ex_mem, 0, 3, 6. do 3 eexists. split; [reflexivity|]. split; [reflexivity|]. split; [reflexivity|]. split; reflexivity. Qed.
Print Assumptions C69_write_refuted.

(** Data (true, false, false) at 0, mask (true, true, false) at 3, fill false at 6. *)
Example C69_ex : holds bool ex_mem 0 [true; false; false] /\ holds bool ex_mem 3 [true; true; false] /\ ex_mem 6 = Some false /\ apart_mem 0 3 3 6 /\
  masked bool (fun b => b) false [true; true; false] [true; false; false] = [false; false; false] /\
  m_collect bool (fun b => b) 3 ex_mem (m_masked 0 3 6) (m_contiguous 3) = Some (Ok [false; false; false]).
Proof.
  split; [|split; [|split; [reflexivity|split; [|split; reflexivity]]]].
  - intros [|[|[|i]]] v H; try exact H; destruct i; discriminate H.
  - intros [|[|[|i]]] v H; try exact H; destruct i; discriminate H.
  - unfold apart_mem. lia.
Qed.
Example C69_ex_moves : net [Inc; Add 3; Dec; Sub 1] = 2 /\ exists it, moved (m_masked 0 3 6) [Inc; Add 3; Dec; Sub 1] = Ok it /\ m_read bool (fun b => b) ex_mem it = Ok false.
Proof. split; [reflexivity|]. eexists. split; reflexivity. Qed.
