(** Model of the storage layouts (src/ovxx/layout.hpp): how the
    Applied_layout classes turn an extent into strides, an offset for
    every index, and an allocation size.
    Sizes and offsets are integers; simplification: products of sizes do
    not wrap at 2^64 (such a block could not be allocated).  The one
    subtraction that can wrap for an ordinary block (total_size of an
    aligned layout) is taken modulo 2^64. *)
From Coq Require Import ZArith List Lia Bool.
From Verif Require Import Base.
Import ListNotations.
Open Scope Z_scope.

(** vsip/layout.hpp 22-41: enum pack_type; the value of an [aligned_A]
    enumerator is the number A itself. *)
Definition p_dense : Z := 2.
Definition p_aligned : Z := 7.
Definition p_aligned_8 : Z := 8.
Definition p_aligned_512 : Z := 512.
Definition p_aligned_1024 : Z := 1024.

(** Dimension order: most significant dimension first (tuple<D0,D1,D2>). *)
Definition order := list nat.
Definition order_valid (D : nat) (o : order) : bool :=
  match D, o with
  | 1%nat, [0%nat] => true
  | 2%nat, [0%nat;1%nat] | 2%nat, [1%nat;0%nat] => true
  | 3%nat, [0;1;2]%nat | 3%nat, [0;2;1]%nat | 3%nat, [1;0;2]%nat
  | 3%nat, [1;2;0]%nat | 3%nat, [2;0;1]%nat | 3%nat, [2;1;0]%nat => true
  | _, _ => false
  end.

Definition at_ (l : list Z) (d : nat) : Z := nth d l 0.
Definition dim_ (o : order) (k : nat) : nat := nth k o 0%nat.

(** The data members of the Applied_layout specialisations. *)
Inductive applied :=
| A1 (size stride : Z)                          (* 141-225: 1-D, all packings *)
| A2row (s0 s1 : Z)                             (* 227-270: 2-D dense, tuple<0,1,2> *)
| A2col (s0 s1 : Z)                             (* 272-314: 2-D dense, tuple<1,0,2> *)
| A2rowA (s0 s1 stride : Z)                     (* 316-371: 2-D aligned, row major *)
| A2colA (s0 s1 stride : Z)                     (* 373-428: 2-D aligned, column major *)
| A2any (s0 s1 t0 t1 : Z)                       (* 430-462: 2-D any_packing *)
| A3 (o : order) (size : list Z)                (* 464-506: 3-D dense *)
| A3A (o : order) (size stride : list Z)        (* 508-556: 3-D aligned *)
| ART (o : order) (size stride : list Z).       (* 574-711: run-time layout *)

(** [if (stride_ % A != 0) stride_ += (A - stride_%A);] (layout.hpp 332, 389, 530). *)
Definition round_up (s A : Z) : Z := if s mod A =? 0 then s else s + (A - s mod A).

(** ** Compile-time layouts, built from an extent *)
Inductive packing := P_any | P_unit | P_dense | P_aligned (A : Z).

(** The packings A for which the aligned specialisations exist (363-371,
    420-428, 549-556): 8, 16, ..., 1024. *)
Definition is_aligned_enum (A : Z) : bool :=
  existsb (Z.eqb A) [8;16;32;64;128;256;512;1024].

(** 3-D aligned constructor, 519-533. *)
Definition strides3A (o : order) (size : list Z) (A : Z) : list Z :=
  let d0 := dim_ o 0 in let d1 := dim_ o 1 in let d2 := dim_ o 2 in
  let st := lset [0;0;0] d2 1 in
  let st := lset st d1 (round_up (at_ size d2) A) in
  lset st d0 (at_ size d1 * at_ st d1).

(** Applied_layout<Layout<D,Order,P,C> >(extent); [None]: no such
    specialisation (does not compile). *)
Definition make_layout (o : order) (p : packing) (ext : list Z) : option applied :=
  if negb (order_valid (length ext) o) then None else
  match ext, p with
  | [n], P_any => Some (A1 n 1)                                    (* 211-213 *)
  | [n], P_aligned A =>                                            (* 175-198 *)
      if (A =? p_aligned) || is_aligned_enum A then Some (A1 n 1) else None
  | [n], _ => Some (A1 n 1)                                        (* 150-152, 164-173 *)
  | [n0;n1], P_dense =>                                            (* 242-247, 287-292 *)
      Some (if Nat.eqb (dim_ o 0) 0 then A2row n0 n1 else A2col n0 n1)
  | [n0;n1], P_aligned A =>
      if is_aligned_enum A then
        Some (if Nat.eqb (dim_ o 0) 0
              then A2rowA n0 n1 (round_up n1 A)                    (* 335-342 *)
              else A2colA n0 n1 (round_up n0 A))                   (* 391-398 *)
      else None
  | [n0;n1;n2], P_dense => Some (A3 o [n0;n1;n2])                  (* 477-483 *)
  | [n0;n1;n2], P_aligned A =>                                     (* 519-533 *)
      if is_aligned_enum A then Some (A3A o [n0;n1;n2] (strides3A o [n0;n1;n2] A))
      else None
  | _, _ => None
  end.

(** The two-argument constructors Applied_layout(size0, size1) of the
    2-D classes (236-240, 281-285, 327-333, 383-389).  The column-major
    aligned one pads size_[1] although size_[0] is the fast dimension. *)
Definition make_layout2 (o : order) (p : packing) (n0 n1 : Z) : option applied :=
  if negb (order_valid 2 o) then None else
  match p with
  | P_dense => Some (if Nat.eqb (dim_ o 0) 0 then A2row n0 n1 else A2col n0 n1)
  | P_aligned A =>
      if is_aligned_enum A then
        Some (if Nat.eqb (dim_ o 0) 0
              then A2rowA n0 n1 (round_up n1 A)
              else A2colA n0 n1 (round_up n1 A))
      else None
  | _ => None
  end.

(** ** Run-time layouts *)

(** layout.hpp 106-124 (Rt_layout).  The storage format member does not
    influence the offsets and is left out. *)
Record rt_layout := { rt_packing : Z; rt_order : order; rt_alignment : Z }.

(** layout.hpp 100. *)
Definition is_aligned (p : Z) : bool := (p_aligned <=? p) && (p <=? p_aligned_1024).

(** layout.hpp 618-636 / 645-656: padding of the line stride, with its
    run-time checks.  [s] is the unpadded stride in elements. *)
Definition rt_pad (l : rt_layout) (elem s : Z) : option Z :=
  if is_aligned (rt_packing l) && negb (rt_alignment l =? 0)
     && negb ((elem * s) mod rt_alignment l =? 0)
  then
    let adjust := rt_alignment l - (s * elem) mod rt_alignment l in
    assert (0 <? adjust) && (adjust mod elem =? 0) ;;
    let s' := s + adjust / elem in
    assert ((s' * elem) mod rt_alignment l =? 0) ;;
    Some s'
  else Some s.

(** layout.hpp 606-664: Applied_layout<Rt_layout<D> >(layout, extent, elem_size).
    [elem = 0] divides by zero. *)
Definition make_rt (l : rt_layout) (ext : list Z) (elem : Z) : option applied :=
  assert negb (elem =? 0) ;;
  assert (negb (is_aligned (rt_packing l)) || (rt_alignment l =? 0)
          || (rt_alignment l mod elem =? 0)) ;;
  let o := rt_order l in
  match length ext with
  | 3%nat =>
      let d0 := dim_ o 0 in let d1 := dim_ o 1 in let d2 := dim_ o 2 in
      let st := lset [0;0;0] d2 1 in
      t <- rt_pad l elem (at_ ext d2) ;;
      let st := lset st d1 t in
      Some (ART o ext (lset st d0 (at_ ext d1 * at_ st d1)))
  | 2%nat =>
      let d0 := dim_ o 0 in let d1 := dim_ o 1 in
      let st := lset [0;0] d1 1 in
      t <- rt_pad l elem (at_ ext d1) ;;
      Some (ART o ext (lset st d0 t))
  | _ => Some (ART o ext [1])
  end.

(** layout.hpp 595-604: from a domain of physical strides. *)
Definition make_rt_domain (size stride : list Z) : applied :=
  ART (seq 0 (length size)) size stride.

(** layout.hpp 75-96: is_packing_aligned<P>::alignment.  There is no
    specialisation for aligned_512. *)
Definition static_alignment (P : Z) : Z :=
  if existsb (Z.eqb P) [8;16;32;64;128;256;1024] then P else 0.
(** layout.hpp 766-774: the run-time description of a block's layout. *)
Definition block_layout (P : Z) (o : order) : rt_layout :=
  {| rt_packing := P; rt_order := o; rt_alignment := static_alignment P |}.

(** ** Member functions *)

Fixpoint inb (size i : list Z) : bool :=
  match size, i with
  | [], [] => true
  | n :: s', x :: i' => (0 <=? x) && (x <? n) && inb s' i'
  | _, _ => false
  end.

(** index(...): 154, 215, 249-254, 294-298, 344-348, 400-404, 444-445,
    485-489, 535-541, 666-686.  The 2-D overloads taking an Index<2> and
    the 1-D functions compute the same value without the range check;
    the model checks everywhere. *)
Definition index (l : applied) (i : list Z) : option Z :=
  match l with
  | A1 n t => assert (inb [n] i) ;; Some (at_ i 0 * t)
  | A2row s0 s1 => assert (inb [s0;s1] i) ;; Some (at_ i 0 * s1 + at_ i 1)
  | A2col s0 s1 => assert (inb [s0;s1] i) ;; Some (at_ i 0 + at_ i 1 * s0)
  | A2rowA s0 s1 t => assert (inb [s0;s1] i) ;; Some (at_ i 0 * t + at_ i 1)
  | A2colA s0 s1 t => assert (inb [s0;s1] i) ;; Some (at_ i 0 + at_ i 1 * t)
  | A2any s0 s1 t0 t1 => assert (inb [s0;s1] i) ;; Some (at_ i 0 * t0 + at_ i 1 * t1)
  | A3 o s => assert (inb s i) ;;
      Some (at_ i (dim_ o 0) * at_ s (dim_ o 1) * at_ s (dim_ o 2)
            + at_ i (dim_ o 1) * at_ s (dim_ o 2) + at_ i (dim_ o 2))
  | A3A o s t => assert (inb s i) ;;
      Some (at_ i (dim_ o 0) * at_ t (dim_ o 0)
            + at_ i (dim_ o 1) * at_ t (dim_ o 1) + at_ i (dim_ o 2))
  | ART o s t => assert (inb s i) ;;
      match length s with
      | 3%nat => Some (at_ i (dim_ o 0) * at_ t (dim_ o 0)
                       + at_ i (dim_ o 1) * at_ t (dim_ o 1)
                       + at_ i (dim_ o 2) * at_ t (dim_ o 2))
      | 2%nat => Some (at_ i (dim_ o 0) * at_ t (dim_ o 0)
                       + at_ i (dim_ o 1) * at_ t (dim_ o 1))
      | _ => Some (at_ i (dim_ o 0) * at_ t (dim_ o 0))
      end
  end.

(** stride(d): 156, 217, 259-260, 303-304, 351-352, 407-408, 448-449,
    494-497, 545-546, 687. *)
Definition stride (l : applied) (d : nat) : Z :=
  match l with
  | A1 _ t => t
  | A2row _ s1 => if Nat.eqb d 0 then s1 else 1
  | A2col s0 _ => if Nat.eqb d 0 then 1 else s0
  | A2rowA _ _ t => if Nat.eqb d 0 then t else 1
  | A2colA _ _ t => if Nat.eqb d 1 then t else 1
  | A2any _ _ t0 t1 => at_ [t0;t1] d
  | A3 o s => if Nat.eqb d (dim_ o 2) then 1
              else if Nat.eqb d (dim_ o 1) then at_ s (dim_ o 2)
              else at_ s (dim_ o 1) * at_ s (dim_ o 2)
  | A3A _ _ t => at_ t d
  | ART _ _ t => at_ t d
  end.

(** total_size(): 158, 219, 265-266, 309-310, 355-356, 411-412, 452-453,
    502-503, 549-550, 690-691. *)
Definition total_size (l : applied) : Z :=
  match l with
  | A1 n _ => n
  | A2row s0 s1 => s1 * s0
  | A2col s0 s1 => s1 * s0
  | A2rowA s0 s1 t => u64 (t * s0 - (t - s1))
  | A2colA s0 s1 t => u64 (t * s1 - (t - s0))
  | A2any s0 s1 _ _ => s0 * s1
  | A3 _ s => at_ s 2 * at_ s 1 * at_ s 0
  | A3A o s t => at_ s (dim_ o 0) * at_ t (dim_ o 0)
  | ART o s t => at_ s (dim_ o 0) * at_ t (dim_ o 0)
  end.

(** * Specification *)

(** [i] is an index of a block of extent [ext]. *)
Definition in_range (ext i : list Z) : Prop := Forall2 (fun x n => 0 <= x < n) i ext.

(** The value of an offset as a dot product. *)
Fixpoint dot_strides (st : nat -> Z) (d : nat) (i : list Z) : Z :=
  match i with [] => 0 | x :: r => x * st d + dot_strides st (S d) r end.

(** Every index has its own offset, below the allocation size. *)
Definition own_cells (l : applied) (ext : list Z) : Prop :=
  (forall i, in_range ext i -> exists a, index l i = Some a /\ 0 <= a < total_size l) /\
  (forall i j, in_range ext i -> in_range ext j -> index l i = index l j -> i = j).

(** Every cell of the allocation holds an element. *)
Definition all_cells_used (l : applied) (ext : list Z) : Prop :=
  forall a, 0 <= a < total_size l -> exists i, in_range ext i /\ index l i = Some a.

(** The padded block has fewer than 2^64 elements (anything else could
    not be allocated). *)
Definition fits (l : applied) (ext : list Z) : Prop :=
  forall d, (d < length ext)%nat -> at_ ext d * stride l d < W64.

(** The fastest-varying dimension of an order, and the next one. *)
Definition fast (o : order) : nat := last o 0%nat.
Definition slower (o : order) : nat := dim_ o (length o - 2).
