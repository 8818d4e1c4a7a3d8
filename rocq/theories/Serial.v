(** * Descriptors of serialized data

    Model of src/vsip/serialization.hpp, on top of the layouts of Layout.v.
    Simplification: an element type is one of those listed, or a user type
    with the code given to it; int is 32 bits wide (only used for the size in bytes). *)
From Coq Require Import ZArith List Lia Bool Arith.
From Verif Require Import Base Layout.
Import ListNotations.
Local Open Scope Z_scope.

(** Descriptor, 30-38.  The arrays have three elements. *)
Record descriptor := { d_type : Z; d_dims : Z; d_format : Z; d_size : list Z; d_stride : list Z; d_storage : Z }.

(** The types with a type_info, 57-96 (int8_type ... uint64_type by their size in bytes),
    and types for which the user gives a code (share/examples/dda/serialization.cpp 57-66). *)
Inductive vtype := TBool | TChar | TFloat | TCFloat | TDouble | TCDouble | TInt (bytes : Z) (unsigned : bool) | TUser (code : Z).
(** 44-50, 61-96. *)
Definition type_code (t : vtype) : Z :=
  match t with
  | TBool => 0 | TChar => 1 | TFloat => 4 | TCFloat => 5 | TDouble => 6 | TCDouble => 7
  | TInt s u => Z.shiftl s 10 + Z.shiftl (if u then 1 else 0) 9 + Z.shiftl 1 8
  | TUser c => c
  end.
(** 52-54; size returns unsigned. *)
Definition is_integral (v : Z) : bool := Z.testbit v 8.
Definition is_unsigned (v : Z) : bool := Z.testbit v 9.
Definition code_size (v : Z) : Z := Z.shiftr v 10 mod 2 ^ 32.

(** The dimension order tuple<D0,D1,D2> behind a D-dimensional order. *)
Definition full (o : order) : order := o ++ seq (length o) (3 - length o).
(** ordering_compatibility<tuple<D0,D1,D2> >::check, 113-131. *)
Definition order_check (o : order) (d : descriptor) : bool :=
  let o := full o in
  let D0 := dim_ o 0 in let D1 := dim_ o 1 in let D2 := dim_ o 2 in
  let stride := at_ (d_stride d) in let size := at_ (d_size d) in
  if (d_dims d =? 1) && negb (stride D0 =? 1) then false
  else if (d_dims d =? 2) && negb (stride D1 =? 1) then false
  else if (d_dims d =? 3) && negb (stride D2 =? 1) then false
  else if (d_dims d =? 2) && ((stride D0 <? 0) || negb (u64 (stride D0) =? size D1)) then false
  else if (d_dims d =? 3) && ((stride D0 <? 0) || negb (u64 (stride D0) =? u64 (size D2 * size D1))) then false
  else true.
(** block_compatibility<Strided<D, T, Layout<D, O, dense, S>, Local_map> >::check, 133-156,
    and of Dense<D, T, O, Local_map>, 158-162. *)
Definition type_check (t : vtype) (D : nat) (d : descriptor) : bool :=
  if is_integral (type_code t) then
    is_integral (d_type d) && Bool.eqb (is_unsigned (type_code t)) (is_unsigned (d_type d)) && (code_size (type_code t) =? code_size (d_type d))
  else (type_code t =? d_type d) && (Z.of_nat D =? d_dims d).
(** is_compatible<B>, 244-246; other blocks: false (104-108). *)
Definition is_compatible (t : vtype) (D : nat) (o : order) (d : descriptor) : bool := type_check t D d && order_check o d.

(** describe_data, 173-193: a dda::Data of element type [t] with the given sizes and strides (one for
    each dimension) and storage_size().  [old]: the descriptor before. *)
Definition describe_data (t : vtype) (fmt : Z) (sizes strides : list Z) (storage : Z) (old : descriptor) : descriptor :=
  let D := length sizes in
  let set old v d := if Nat.ltb d D then lset old d (at_ v d) else old in
  {| d_type := type_code t; d_dims := Z.of_nat D; d_format := fmt;
     d_size := set (set (set (d_size old) sizes 0%nat) sizes 1%nat) sizes 2%nat;
     d_stride := set (set (set (d_stride old) strides 0%nat) strides 1%nat) strides 2%nat;
     d_storage := storage |}.
(** dda::Data of a block that offers direct access (dda/accessor.hpp 270-307): the sizes and strides
    of the block, and its number of elements as storage size. *)
Definition describe_direct (t : vtype) (fmt : Z) (sizes strides : list Z) (old : descriptor) : descriptor :=
  describe_data t fmt sizes strides (fold_right Z.mul 1 sizes) old.
(** The storage formats have the same numbers in storage_format_type (vsip/layout.hpp 65-76) and
    user_storage_type (ovxx/storage/traits.hpp 15-21). *)
Definition array := 1.
Definition split_complex := 2.
Definition interleaved_complex := 3.
(** describe_user_storage, 200-236. *)
Definition describe_user_storage (t : vtype) (fmt : Z) (o : order) (p : packing) (ext : list Z) : option descriptor :=
  l <- make_layout o p ext ;;
  let D := length ext in
  let n := fold_right Z.mul 1 ext in
  Some {| d_type := type_code t; d_dims := Z.of_nat D; d_format := fmt;
          d_size := match D with 1%nat => [at_ ext 0; 0; 0] | 2%nat => [at_ ext 0; at_ ext 1; 0] | _ => [at_ ext 0; at_ ext 1; at_ ext 2] end;
          d_stride := match D with
                      | 1%nat => [1; 0; 0]
                      | 2%nat => [stride l 0; stride l 1; 0]
                      | _ => [stride l 0; stride l 1; stride l 2]
                      end;
          d_storage := if fmt =? array then n else n * 2 |}.

(** * Specification *)

(** Where the descriptor says element [i] is, counted from the pointer. *)
Definition described (d : descriptor) (i : list Z) : Z := dot_strides (at_ (d_stride d)) 0 i.
(** The sizes the descriptor gives for a block of dimension D. *)
Definition sizes_of (D : nat) (d : descriptor) : list Z := firstn D (d_size d).
(** Types the library knows. *)
Definition builtin (t : vtype) : Prop := match t with TInt s _ => In s [1; 2; 4; 8] | TUser _ => False | _ => True end.
(** A dense block of dimension D and order o bound to the pointer, with the
    sizes of the descriptor, has every element where the descriptor says. *)
Definition reads_described (D : nat) (o : order) (d : descriptor) : Prop :=
  exists l, make_layout o P_dense (sizes_of D d) = Some l /\
    forall i, in_range (sizes_of D d) i -> index l i = Some (described d i).
