(** Model of the buffer that [StateView] hands to NumPy: [__getbuffer__], dwave/optimization/states.pyx:313-333.
    Memory is that of the array whose elements are shown; addresses are in bytes, relative to its first element.
    The format is that of doubles, [suboffsets] is empty. *)
From Verif Require Import Base SliceModel ShapeModel StateDataModel NodeSpec BinaryModel BasicModel ViewModel.
Local Open Scope Z_scope.

Record buffer := Buffer { bu_buf : Z; bu_len : Z; bu_shape : list Z; bu_strides : list Z }.

(** A basic indexing node: [buff] (src/nodes/indexing.cpp:1095-1103), [len] (array.hpp:736), [shape] (indexing.cpp:1592-1597;
    [update_dynamic_shape] writes the first axis), [strides]. *)
Definition view_buffer {V} (p : parsed) (st : @bst V) : buffer :=
  Buffer (itemsize * bbuff p st) (itemsize * bsize p st)
         (if shape_to_size (p_shape p) <? 0 then b_n0 st :: tl (p_shape p) else p_shape p) (p_strides p).

(** A node with memory of its own: the strides are those of the static shape (array.hpp, [ArrayOutputMixin]), and the first
    axis, if it depends on the state, is the size divided by the elements in a row, as in indexing.cpp:652-657. *)
Definition own_buffer (shape : list Z) (size : Z) : buffer :=
  let strides := shape_to_strides shape in
  Buffer 0 (itemsize * size)
         (if dynamic shape then Z.quot size (Z.quot (hd 0 strides) itemsize) :: tl shape else shape) strides.
