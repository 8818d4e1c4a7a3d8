(** Model of plain block-to-block assignment, [lhs = rhs] where both sides
    have directly accessible data (src/ovxx/assign/copy.hpp).
    Memory is addressed in elements; pointers and strides are unbounded
    integers (every address formed lies in or next to an allocated object,
    so 64-bit arithmetic does not wrap).  Accesses outside allocated memory
    and overlapping memcpy ranges are [None].
    Not modelled: the stride-only [copy] of lines 61-85, which is never
    called; the in-place transpose of split-complex data (lines 36-48), whose
    caller does not compile for split-complex blocks because the out-of-place
    transpose has no overload for them. *)
From Coq Require Import ZArith List Lia Bool Arith.
From Verif Require Import Base.
Import ListNotations.
Local Open Scope Z_scope.

Section Copy.
Context {V : Type}.

(** What dda::Data reports about a 1-D and a 2-D block: pointer, strides, sizes. *)
Record dv1 := { p1 : Z; s1 : Z; n1 : nat }.
Record dv2 := { p2 : Z; s2_0 : Z; s2_1 : Z; n2_0 : nat; n2_1 : nat }.
(** Dimension order of a 2-D block: row2_type or col2_type. *)
Inductive order2 := Row2 | Col2.

(** std::memcpy of [n] elements.  Overlap is undefined; copying a range onto
    itself is taken to leave it unchanged, as compilers assume. *)
Definition memcpy (m : mem V) (d s : Z) (n : nat) : option (mem V) :=
  assert ((d =? s) || (d + Z.of_nat n <=? s) || (s + Z.of_nat n <=? d)) ;;
  loop (fun i m => x <- mload m (s + Z.of_nat i) ;; mstore m (d + Z.of_nat i) x) 0 n m.

(** copy.hpp 20-35: in-place transpose. *)
Definition transpose_in_place (m : mem V) (data row_stride col_stride : Z) (rows cols : nat) : option (mem V) :=
  loop (fun i m =>
    loop (fun j m =>
      let a := data + (col_stride * Z.of_nat i + row_stride * Z.of_nat j) in
      let b := data + (col_stride * Z.of_nat j + row_stride * Z.of_nat i) in
      x <- mload m a ;; y <- mload m b ;;
      m <- mstore m a y ;; mstore m b x) i (cols - i) m) 0 rows m.

(** copy.hpp 50-59: out-of-place transpose. *)
Definition transpose_to (m : mem V) (lhs lhs_col_stride rhs rhs_row_stride : Z) (lhs_rows lhs_cols : nat) : option (mem V) :=
  loop (fun r m =>
    loop (fun c m =>
      x <- mload m (rhs + (Z.of_nat r * rhs_row_stride + Z.of_nat c)) ;;
      mstore m (lhs + (Z.of_nat r + Z.of_nat c * lhs_col_stride)) x) 0 lhs_cols m) 0 lhs_rows m.

(** copy.hpp 87-120: the loops carry the running pointers. *)
Definition copy_strided (m : mem V) (lhs lrs lcs rhs rrs rcs : Z) (rows cols : nat) : option (mem V) :=
  if (lcs =? 1) && (rcs =? 1) then
    if (lrs =? Z.of_nat cols) && (rrs =? Z.of_nat cols) then memcpy m lhs rhs (rows * cols)
    else
      s <- loop (fun _ s => let '(m, l, r) := s in
                 m <- memcpy m l r cols ;; Some (m, l + lrs, r + rrs)) 0 rows (m, lhs, rhs) ;;
      Some (fst (fst s))
  else
    s <- loop (fun _ s => let '(m, l, r) := s in
               s <- loop (fun _ s => let '(m, lr, rr) := s in
                          x <- mload m rr ;; m <- mstore m lr x ;; Some (m, lr + lcs, rr + rcs))
                         0 cols (m, l, r) ;;
               Some (fst (fst s), l + lrs, r + rrs)) 0 rows (m, lhs, rhs) ;;
    Some (fst (fst s)).

(** copy.hpp 122-136: split-complex data, the two arrays one after the other. *)
Definition copy_split (m : mem V) (lhs_re lhs_im lrs lcs rhs_re rhs_im rrs rcs : Z) (rows cols : nat) : option (mem V) :=
  m <- copy_strided m lhs_re lrs lcs rhs_re rrs rcs rows cols ;;
  copy_strided m lhs_im lrs lcs rhs_im rrs rcs rows cols.

(** copy.hpp 138-158: both blocks row-major, both column-major. *)
Definition copy_row_row (l r : dv2) (m : mem V) : option (mem V) :=
  copy_strided m (p2 l) (s2_0 l) (s2_1 l) (p2 r) (s2_0 r) (s2_1 r) (n2_0 l) (n2_1 l).
Definition copy_col_col (l r : dv2) (m : mem V) : option (mem V) :=
  copy_strided m (p2 l) (s2_1 l) (s2_0 l) (p2 r) (s2_1 r) (s2_0 r) (n2_1 l) (n2_0 l).
(** copy.hpp 160-187: column-major = row-major. *)
Definition copy_col_row (l r : dv2) (m : mem V) : option (mem V) :=
  if p2 l =? p2 r then
    assert (n2_0 l =? n2_1 l)%nat ;;
    transpose_in_place m (p2 l) (s2_0 l) (s2_1 l) (n2_0 l) (n2_1 l)
  else if (s2_0 l =? 1) && (s2_1 r =? 1) then
    transpose_to m (p2 l) (s2_1 l) (p2 r) (s2_0 r) (n2_0 l) (n2_1 l)
  else copy_strided m (p2 l) (s2_0 l) (s2_1 l) (p2 r) (s2_0 r) (s2_1 r) (n2_0 l) (n2_1 l).
(** copy.hpp 189-215: row-major = column-major.  As in the code, the last
    branch passes the two sizes in the opposite order. *)
Definition copy_row_col (l r : dv2) (m : mem V) : option (mem V) :=
  if p2 l =? p2 r then
    assert (n2_0 l =? n2_1 l)%nat ;;
    transpose_in_place m (p2 l) (s2_0 l) (s2_1 l) (n2_0 l) (n2_1 l)
  else if (s2_1 l =? 1) && (s2_0 r =? 1) then
    transpose_to m (p2 l) (s2_0 l) (p2 r) (s2_1 r) (n2_1 l) (n2_0 l)
  else copy_strided m (p2 l) (s2_0 l) (s2_1 l) (p2 r) (s2_0 r) (s2_1 r) (n2_1 l) (n2_0 l).

(** copy.hpp 276-312, the 2-D evaluator: overload selection on the two
    dimension orders. *)
Definition copy2 (lo ro : order2) (l r : dv2) (m : mem V) : option (mem V) :=
  match lo, ro with
  | Row2, Row2 => copy_row_row l r m
  | Col2, Col2 => copy_col_col l r m
  | Col2, Row2 => copy_col_row l r m
  | Row2, Col2 => copy_row_col l r m
  end.

(** copy.hpp 222-273, the 1-D evaluator.  [cv] is the conversion from the
    right-hand to the left-hand value type, [None] if they are the same. *)
Definition copy1 (cv : option (V -> V)) (l r : dv1) (m : mem V) : option (mem V) :=
  let size := n1 l in
  assert (size <=? n1 r)%nat ;;
  if match cv with None => true | _ => false end && (s1 l =? 1) && (s1 r =? 1) then
    memcpy m (p1 l) (p1 r) size
  else
    s <- loop (fun _ s => let '(m, a, b) := s in
               x <- mload m b ;; m <- mstore m a (match cv with None => x | Some f => f x end) ;;
               Some (m, a + s1 l, b + s1 r)) 0 size (m, p1 l, p1 r) ;;
    Some (fst (fst s)).

(** * Specification *)
Local Open Scope nat_scope.
(** Where element [i], respectively [(i,j)], is stored. *)
Definition at1 (b : dv1) (i : nat) : Z := (p1 b + Z.of_nat i * s1 b)%Z.
Definition at2 (b : dv2) (i j : nat) : Z := (p2 b + Z.of_nat i * s2_0 b + Z.of_nat j * s2_1 b)%Z.
(** The elements of the block are allocated, each in a cell of its own. *)
Definition own1 (m : mem V) (b : dv1) : Prop :=
  (forall i, i < n1 b -> m (at1 b i) <> None) /\
  (forall i i', i < n1 b -> i' < n1 b -> at1 b i = at1 b i' -> i = i').
Definition own2 (m : mem V) (b : dv2) : Prop :=
  (forall i j, i < n2_0 b -> j < n2_1 b -> m (at2 b i j) <> None) /\
  (forall i j i' j', i < n2_0 b -> j < n2_1 b -> i' < n2_0 b -> j' < n2_1 b ->
     at2 b i j = at2 b i' j' -> i = i' /\ j = j').
(** The elements of the block are allocated. *)
Definition readable2 (m : mem V) (b : dv2) : Prop := forall i j, i < n2_0 b -> j < n2_1 b -> m (at2 b i j) <> None.
Definition readable1 (m : mem V) (b : dv1) : Prop := forall i, i < n1 b -> m (at1 b i) <> None.
(** The right-hand side has the shape of the left-hand side. *)
Definition conform2 (l r : dv2) : Prop := n2_0 r = n2_0 l /\ n2_1 r = n2_1 l.
(** Two blocks that share no cell; two descriptions of the very same cells. *)
Definition apart1 (a b : dv1) : Prop := forall i j, i < n1 a -> j < n1 b -> at1 a i <> at1 b j.
Definition apart2 (a b : dv2) : Prop :=
  forall i j i' j', i < n2_0 a -> j < n2_1 a -> i' < n2_0 b -> j' < n2_1 b -> at2 a i j <> at2 b i' j'.
Definition same2 (l r : dv2) : Prop := p2 l = p2 r /\ s2_0 l = s2_0 r /\ s2_1 l = s2_1 r.
(** [m'] is [m] after the assignment: every element of [l] has received the
    old value of the same element of [r], nothing else has changed. *)
Definition assigned1 (f : V -> V) (l r : dv1) (m m' : mem V) : Prop :=
  (forall i, i < n1 l -> exists x, m (at1 r i) = Some x /\ m' (at1 l i) = Some (f x)) /\
  (forall a, (forall i, i < n1 l -> a <> at1 l i) -> m' a = m a).
Definition assigned2 (l r : dv2) (m m' : mem V) : Prop :=
  (forall i j, i < n2_0 l -> j < n2_1 l -> exists x, m (at2 r i j) = Some x /\ m' (at2 l i j) = Some x) /\
  (forall a, (forall i j, i < n2_0 l -> j < n2_1 l -> a <> at2 l i j) -> m' a = m a).
End Copy.
