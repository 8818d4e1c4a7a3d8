(** Model of vsip::Domain<1> and of the domain algebra used by the
    distributed code (src/vsip/domain.hpp, src/ovxx/domain_utils.hpp). *)
From Coq Require Import ZArith List Lia Bool.
From Verif Require Import Base.
Import ListNotations.
Open Scope Z_scope.

(** domain.hpp 107-178: the three data members of Domain<1>.
    [dfirst], [dlen] are unsigned, [dstride] is signed. *)
Record dom := mkdom { dfirst : Z; dstride : Z; dlen : Z }.

(** domain.hpp 144-155 (impl_nth): signed product, unsigned sum.
    Simplification: a signed overflow of the product (undefined in C++)
    wraps here; the theorems' hypotheses exclude it. *)
Definition impl_nth (d : dom) (i : Z) : Z := u64 (dfirst d + dstride d * s64 i).

(** domain.hpp 156-157 (impl_last). *)
Definition impl_last (d : dom) : Z := impl_nth d (u64 (dlen d - 1)).

(** domain.hpp 189-197 (impl_is_valid). *)
Definition impl_is_valid (d : dom) : bool :=
  (dlen d =? 0) || ((0 <? dlen d) && (0 <=? s64 (impl_last d))).

(** domain.hpp 115-116: the constructor asserts validity. *)
Definition make (i s n : Z) : option dom :=
  let d := mkdom i s n in assert (impl_is_valid d) ;; Some d.

(** domain.hpp 207-210 with 199-205: arithmetic members; the stored
    member is updated with C++ conversions, then validity is asserted. *)
Definition impl_add_in (d : dom) (k : Z) := make (u64 (dfirst d + k)) (dstride d) (dlen d).
Definition impl_sub_out (d : dom) (k : Z) := make (u64 (dfirst d - k)) (dstride d) (dlen d).
(** [stride_ *= a] with [a] of type stride_scalar_type = size_t: the
    signed stride is converted to unsigned, multiplied, converted back. *)
Definition impl_mul_by (d : dom) (k : Z) :=
  make (dfirst d) (s64 (u64 (dstride d) * k)) (dlen d).
(** [stride_ /= a], again in unsigned arithmetic; division by 0 is undefined. *)
Definition impl_div_by (d : dom) (k : Z) :=
  assert (negb (k =? 0)) ;;
  make (dfirst d) (s64 (u64 (dstride d) / k)) (dlen d).

(** domain.hpp 219-226 (impl_equals, used by operator== 463-466). *)
Definition impl_equals (a d : dom) : bool :=
  (dlen a =? dlen d) &&
  (((dstride a =? dstride d) && (dfirst a =? dfirst d)) ||
   ((dstride a =? - dstride d) &&
    (dfirst a =? u64 (dfirst d + u64 (u64 (dlen d - 1) * u64 (dstride d)))))).

(** domain.hpp 215-217. *)
Definition element_conformant (a d : dom) : bool := dlen a =? dlen d.

(** domain_utils.hpp 129-178 (intersect, 1-D).  Outer [None]: violated
    precondition, failed validity assertion or division by zero; inner
    option: the boolean result together with [res]. *)
Definition intersect (a b : dom) : option (option dom) :=
  assert (dstride a =? 1) ;;
  if dstride b =? 1 then
    let first := Z.max (dfirst a) (dfirst b) in
    let last := Z.min (impl_last a) (impl_last b) in
    if first <=? last then
      r <- make first 1 (u64 (u64 (last - first) + 1)) ;; Some (Some r)
    else Some None
  else
    let s := u64 (dstride b) in
    let first1 := dfirst a in
    let first2 := dfirst b in
    let last1 := impl_last a in
    let last2 := impl_last b in
    assert (negb (s =? 0)) ;;
    let first2 :=
      if first2 <? first1 then
        let diff := u64 (first1 - first2) in
        let f := u64 (first2 + diff) in
        if negb (diff mod s =? 0) then u64 (f + u64 (s - diff mod s)) else f
      else first2 in
    let last2 :=
      if last1 <? last2 then
        let diff := u64 (last2 - last1) in
        if negb (diff mod s =? 0) then u64 (last2 - u64 (s - diff mod s)) else last2
      else last2 in
    let first := Z.max first1 first2 in
    let last := Z.min last1 last2 in
    if first <=? last then
      r <- make first (dstride b) (u64 (u64 (last - first) / s + 1)) ;; Some (Some r)
    else Some None.

(** domain_utils.hpp 181-213 (intersect, 2-D and 3-D): per dimension,
    short-circuit [&&]; written once for lists of 1-D domains (the source
    has one overload per dimension count). *)
Fixpoint intersectD (a b : list dom) : option (option (list dom)) :=
  match a, b with
  | [], [] => Some (Some [])
  | d1 :: a', d2 :: b' =>
      r <- intersect d1 d2 ;;
      match r with
      | None => Some None
      | Some c =>
          rs <- intersectD a' b' ;;
          match rs with
          | None => Some None
          | Some cs => Some (Some (c :: cs))
          end
      end
  | _, _ => None
  end.

(** domain_utils.hpp 233-241 (apply_intr, 1-D). *)
Definition apply_intr (x y intr : dom) : option dom :=
  make (u64 (dfirst x + u64 (u64 (dfirst intr - dfirst y) * u64 (dstride x))))
       (s64 (dstride x * dstride intr))
       (dlen intr).

(** domain_utils.hpp 271-278 (subset_from_intr, 1-D). *)
Definition subset_from_intr (d intr : dom) : option dom :=
  assert (negb (u64 (dstride d) =? 0)) ;;
  make (u64 (dfirst intr - dfirst d) / u64 (dstride d)) 1 (dlen intr).

(** domain_utils.hpp 243-260, 280-295: the 2-D and 3-D overloads apply
    the 1-D functions per dimension. *)
Fixpoint apply_intrD (x y intr : list dom) : option (list dom) :=
  match x, y, intr with
  | [], [], [] => Some []
  | a :: x', b :: y', c :: intr' =>
      d <- apply_intr a b c ;; ds <- apply_intrD x' y' intr' ;; Some (d :: ds)
  | _, _, _ => None
  end.
Fixpoint subset_from_intrD (d intr : list dom) : option (list dom) :=
  match d, intr with
  | [], [] => Some []
  | a :: d', c :: intr' =>
      e <- subset_from_intr a c ;; es <- subset_from_intrD d' intr' ;; Some (e :: es)
  | _, _ => None
  end.

(** domain_utils.hpp 300-308 (size): product of lengths. *)
Definition dom_size (d : list dom) : Z :=
  fold_left (fun s x => u64 (s * dlen x)) d 1.

(** domain_utils.hpp 333-343 (normalize). *)
Definition normalize (d : dom) : dom := mkdom 0 1 (dlen d).

(** * Specification *)

(** The i-th index, in true integers. *)
Definition idx (d : dom) (i : Z) : Z := dfirst d + dstride d * i.

(** Membership in the index set denoted by a domain. *)
Definition indom (d : dom) (x : Z) : Prop := exists i, 0 <= i < dlen d /\ x = idx d i.

(** Domains a program can construct: representable members, and every
    index of the domain is a non-negative 63-bit number. *)
Definition dom_ok (d : dom) : Prop :=
  0 <= dfirst d < H64 /\ - H64 < dstride d < H64 /\ 0 <= dlen d < H64 /\
  (0 < dlen d -> 0 <= idx d (dlen d - 1) < H64).

Definition same_set (a b : dom) : Prop := forall x, indom a x <-> indom b x.

(** D-dimensional membership: componentwise. *)
Definition indomD (d : list dom) (x : list Z) : Prop := Forall2 indom d x.

(** The tuple of indices at the tuple of positions [k], and the positions
    a domain has. *)
Definition idxD (d : list dom) (k : list Z) : list Z := map (fun p => idx (fst p) (snd p)) (combine d k).
Definition posD (d : list dom) (k : list Z) : Prop := Forall2 (fun d k => 0 <= k < dlen d) d k.
