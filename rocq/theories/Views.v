(** Model of the sub-view blocks (src/ovxx/expr/subset.hpp, sliced.hpp,
    diag.hpp, transposed.hpp, permuted.hpp) over a stored block.
    Simplifications: maps and local blocks of distributed parents are not
    part of this file; pointer arithmetic does not wrap around; a stored
    block is its applied layout and a memory of elements, the element at
    offset [a] being at address [a]. *)
From Coq Require Import ZArith List Lia Bool.
From Verif Require Import Base Domain Layout.
Import ListNotations.
Open Scope Z_scope.

(** Views built from a stored block; every constructor is one class.
    matrix.hpp 85-133, tensor.hpp 125-229 build them: operator()(Domain),
    row / col, diag, transpose, and the mixed index / domain operators of
    Tensor, which are a Sliced or Sliced2 possibly under a Subset. *)
Inductive view :=
| Root (ext : list Z) (l : applied)              (* a stored block *)
| Subset (dm : list dom) (v : view)              (* subset.hpp 80-240 *)
| Sliced (D : nat) (x : Z) (v : view)            (* sliced.hpp 105-271 *)
| Sliced2 (D1 D2 : nat) (x y : Z) (v : view)     (* sliced.hpp 290-451 *)
| Diag (k : Z) (v : view)                        (* diag.hpp 24-125 *)
| Transposed (v : view)                          (* transposed.hpp 23-91 *)
| Permuted (p : list nat) (v : view).            (* permuted.hpp 61-121 *)

Fixpoint dim (v : view) : nat :=
  match v with
  | Root ext _ => length ext
  | Subset _ v => dim v
  | Sliced _ _ v => dim v - 1
  | Sliced2 _ _ _ _ v => dim v - 2
  | Diag _ v => dim v - 1
  | Transposed v => dim v
  | Permuted _ v => dim v
  end.

(** sliced.hpp 142-144, 183-185, 231-236: the parent's dimension. *)
Definition skip1 (D d : nat) : nat := if Nat.ltb d D then d else d + 1.
(** sliced.hpp 322-326, 371-374. *)
Definition skip2 (D1 D2 d : nat) : nat :=
  if Nat.ltb d D1 then d else if Nat.ltb (d + 1) D2 then d + 1 else d + 2.

(** domain.hpp: no_index is the largest index_type. *)
Definition no_index : Z := W64 - 1.

(** diag.hpp 47-58: Diag::size(), unsigned arithmetic. *)
Definition diag_size (rows cols k : Z) : Z :=
  let limit := Z.min rows cols in
  if 0 <=? k then Z.min limit (u64 (cols - k)) else Z.min limit (u64 (rows + k)).

(** size(dim, d): subset.hpp 125-131, sliced.hpp 140-144, 321-326, diag.hpp
    59-63, transposed.hpp 52-57, permuted.hpp 84-85. *)
Fixpoint vsize (v : view) (d : nat) : Z :=
  match v with
  | Root ext _ => at_ ext d
  | Subset dm _ => dlen (nth d dm (mkdom 0 1 0))
  | Sliced D x v => if x =? no_index then 0 else vsize v (skip1 D d)
  | Sliced2 D1 D2 _ _ v => vsize v (skip2 D1 D2 d)
  | Diag k v => diag_size (vsize v 0) (vsize v 1) k
  | Transposed v => vsize v (1 - d)
  | Permuted p v => vsize v (nth d p 0%nat)
  end.
Definition sizes (v : view) : list Z := map (vsize v) (seq 0 (dim v)).

(** subset.hpp 139-175: the parent's arguments. *)
Fixpoint nths (dm : list dom) (i : list Z) : list Z :=
  match dm, i with d :: dm', x :: i' => impl_nth d x :: nths dm' i' | _, _ => [] end.
(** sliced.hpp 199-216, 228-245, 257-265. *)
Definition slice_args (D : nat) (x : Z) (i : list Z) : option (list Z) :=
  match D, i with
  | 0%nat, [a] => Some [x; a]
  | 0%nat, [a; b] => Some [x; a; b]
  | 1%nat, [a] => Some [a; x]
  | 1%nat, [a; b] => Some [a; x; b]
  | 2%nat, [a; b] => Some [a; b; x]
  | _, _ => None
  end.
(** sliced.hpp 394-399, 417-422, 440-445. *)
Definition slice2_args (D1 D2 : nat) (x y : Z) (i : list Z) : option (list Z) :=
  match D1, D2, i with
  | 0%nat, 1%nat, [a] => Some [x; y; a]
  | 0%nat, 2%nat, [a] => Some [x; a; y]
  | 1%nat, 2%nat, [a] => Some [a; x; y]
  | _, _, _ => None
  end.
(** diag.hpp 71-85: unsigned sums. *)
Definition diag_args (k : Z) (i : list Z) : option (list Z) :=
  match i with
  | [a] => Some (if 0 <=? k then [a; u64 (a + k)] else [u64 (a - k); a])
  | _ => None
  end.
(** transposed.hpp 64-71. *)
Definition trans_args (i : list Z) : option (list Z) :=
  match i with [a; b] => Some [b; a] | _ => None end.
(** permuted.hpp 25-53: the formal parameters are called i_n0, i_n1, i_n2
    and the parent is called with i0, i1, i2. *)
Definition perm_args (p : list nat) (i : list Z) : option (list Z) :=
  match p, i with
  | [n0; n1; n2], [a0; a1; a2] =>
      let i_ c := if Nat.eqb c n0 then a0 else if Nat.eqb c n1 then a1 else a2 in
      Some [i_ 0%nat; i_ 1%nat; i_ 2%nat]
  | _, _ => None
  end.

Section Elements.
Context {V : Type}.
(** get(i...); Subset::get checks its arguments (subset.hpp 139-161). *)
Fixpoint get (v : view) (m : mem V) (i : list Z) : option V :=
  match v with
  | Root _ l => a <- index l i ;; mload m a
  | Subset dm v => assert (inb (map dlen dm) i) ;; get v m (nths dm i)
  | Sliced D x v => a <- slice_args D x i ;; get v m a
  | Sliced2 D1 D2 x y v => a <- slice2_args D1 D2 x y i ;; get v m a
  | Diag k v => a <- diag_args k i ;; get v m a
  | Transposed v => a <- trans_args i ;; get v m a
  | Permuted p v => a <- perm_args p i ;; get v m a
  end.
(** put(i..., val); Subset::put (163-178) does not check. *)
Fixpoint put (v : view) (m : mem V) (i : list Z) (x : V) : option (mem V) :=
  match v with
  | Root _ l => a <- index l i ;; mstore m a x
  | Subset dm v => put v m (nths dm i) x
  | Sliced D y v => a <- slice_args D y i ;; put v m a x
  | Sliced2 D1 D2 y z v => a <- slice2_args D1 D2 y z i ;; put v m a x
  | Diag k v => a <- diag_args k i ;; put v m a x
  | Transposed v => a <- trans_args i ;; put v m a x
  | Permuted p v => a <- perm_args p i ;; put v m a x
  end.
End Elements.

(** stride(dim, d): subset.hpp 226-231, sliced.hpp 180-186, 367-375,
    diag.hpp 115-120, transposed.hpp 80-85, permuted.hpp 108-113. *)
Fixpoint vstride (v : view) (d : nat) : Z :=
  match v with
  | Root _ l => stride l d
  | Subset dm v => vstride v d * dstride (nth d dm (mkdom 0 1 0))
  | Sliced D _ v => vstride v (skip1 D d)
  | Sliced2 D1 D2 _ _ v => vstride v (skip2 D1 D2 d)
  | Diag _ v => vstride v 0 + vstride v 1
  | Transposed v => vstride v (1 - d)
  | Permuted p v => vstride v (nth d p 0%nat)
  end.
(** ptr(), relative to the stored block's pointer: subset.hpp 210-224 (a
    loop over the dimensions), sliced.hpp 169-178, 353-365, diag.hpp 95-113,
    transposed.hpp 77-78, permuted.hpp 102-106. *)
Fixpoint firsts (st : nat -> Z) (d : nat) (dm : list dom) : Z :=
  match dm with [] => 0 | x :: r => dfirst x * st d + firsts st (S d) r end.
Fixpoint ptr (v : view) : Z :=
  match v with
  | Root _ _ => 0
  | Subset dm v => ptr v + firsts (vstride v) 0 dm
  | Sliced D x v => ptr v + x * vstride v D
  | Sliced2 D1 D2 x y v => ptr v + (x * vstride v D1 + y * vstride v D2)
  | Diag k v => if 0 <=? k then ptr v + k * vstride v 1 else ptr v + - k * vstride v 0
  | Transposed v => ptr v
  | Permuted _ v => ptr v
  end.

(** * Specification *)

Fixpoint root_ext (v : view) : list Z :=
  match v with
  | Root ext _ => ext
  | Subset _ v | Sliced _ _ v | Sliced2 _ _ _ _ v | Diag _ v | Transposed v | Permuted _ v => root_ext v
  end.
Fixpoint root_layout (v : view) : applied :=
  match v with
  | Root _ l => l
  | Subset _ v | Sliced _ _ v | Sliced2 _ _ _ _ v | Diag _ v | Transposed v | Permuted _ v => root_layout v
  end.

(** Index [i] of the view names index [r] of the stored block. *)
Fixpoint names (v : view) (i r : list Z) : Prop :=
  match v with
  | Root _ _ => r = i
  | Subset dm v => exists q, Forall2 (fun '(d, x) y => y = dfirst d + dstride d * x) (combine dm i) q /\ names v q r
  | Sliced D x v => names v (firstn D i ++ x :: skipn D i) r
  | Sliced2 D1 D2 x y v =>
      exists q, length q = 3%nat /\ at_ q D1 = x /\ at_ q D2 = y /\ at_ q (3 - D1 - D2) = at_ i 0 /\ names v q r
  | Diag k v => exists a b, b - a = k /\ Z.min a b = at_ i 0 /\ names v [a; b] r
  | Transposed v => names v [at_ i 1; at_ i 0] r
  | Permuted p v => exists q, length q = 3%nat /\ (forall d, (d < 3)%nat -> at_ q (nth d p 0%nat) = at_ i d) /\ names v q r
  end.

(** A stored block: any compile-time or run-time layout of its extent. *)
Definition stored (ext : list Z) (l : applied) : Prop :=
  Forall (fun n => 0 <= n < H64) ext /\
  ((exists o p, make_layout o p ext = Some l /\ fits l ext) \/
   (exists rl elem, order_valid (length ext) (rt_order rl) = true /\ 0 < elem /\
      (0 <= rt_alignment rl /\
       (is_aligned (rt_packing rl) = true -> rt_alignment rl <> 0 -> rt_alignment rl mod elem = 0)) /\
      make_rt rl ext elem = Some l)).

(** What the constructors require of their arguments (subset.hpp 94-109,
    matrix.hpp 106-118, sliced.hpp 103-104, diag: an existing diagonal). *)
Fixpoint wf (v : view) : Prop :=
  match v with
  | Root ext l => stored ext l
  | Subset dm v => wf v /\ Forall dom_ok dm /\
      Forall2 (fun d n => dlen d = 0 \/ (dfirst d < n /\ impl_last d < n)) dm (sizes v)
  | Sliced D x v => wf v /\ (2 <= dim v)%nat /\ (D < dim v)%nat /\ 0 <= x < vsize v D
  | Sliced2 D1 D2 x y v => wf v /\ dim v = 3%nat /\ (D1 < D2 < 3)%nat /\ 0 <= x < vsize v D1 /\ 0 <= y < vsize v D2
  | Diag k v => wf v /\ dim v = 2%nat /\ - vsize v 0 <= k <= vsize v 1
  | Transposed v => wf v /\ dim v = 2%nat
  | Permuted p v => wf v /\ dim v = 3%nat /\ order_valid 3 p = true
  end.

(** No subset repeats an element: a zero stride only with one element. *)
Fixpoint no_repeat (v : view) : Prop :=
  match v with
  | Root _ _ => True
  | Subset dm v => Forall (fun d => dstride d <> 0 \/ dlen d <= 1) dm /\ no_repeat v
  | Sliced _ _ v | Sliced2 _ _ _ _ v | Diag _ v | Transposed v | Permuted _ v => no_repeat v
  end.
