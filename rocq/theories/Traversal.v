(** Model of the index traversal loops
    [for (Index<D> idx; valid(ext, idx); next<Order>(ext, idx)) ...]
    (src/ovxx/domain_utils.hpp 419-479). *)
From Coq Require Import List Arith Lia Bool Sorted.
From Verif Require Import Base.
Import ListNotations.

(** An Index<D>/Length<D> is the list of its D coordinates; the default
    constructor is the zero index (ovxx/vertex.hpp 22, 37, 53).
    Simplification: coordinates do not wrap at 2^64. *)
Definition coord (i : list nat) (d : nat) : nat := nth d i 0.
Definition incr (i : list nat) (d : nat) : list nat := lset i d (coord i d + 1).

(** domain_utils.hpp 421-428: 1-D. *)
Definition next1 (o : list nat) (ext i : list nat) : list nat := incr i (coord o 0).

(** domain_utils.hpp 430-442: 2-D. *)
Definition next2 (o : list nat) (ext i : list nat) : list nat :=
  let d0 := coord o 0 in let d1 := coord o 1 in
  let i := incr i d1 in
  if coord i d1 =? coord ext d1 then
    let i := incr i d0 in
    if negb (coord i d0 =? coord ext d0) then lset i d1 0 else i
  else i.

(** domain_utils.hpp 444-459: 3-D. *)
Definition next3 (o : list nat) (ext i : list nat) : list nat :=
  let d0 := coord o 0 in let d1 := coord o 1 in let d2 := coord o 2 in
  let i := incr i d2 in
  if coord i d2 =? coord ext d2 then
    let i := incr i d1 in
    if coord i d1 =? coord ext d1 then
      let i := incr i d0 in
      if coord i d0 =? coord ext d0 then i
      else lset (lset i d1 0) d2 0
    else lset i d2 0
  else i.

(** Overload resolution on the number of dimensions. *)
Definition next (o : list nat) (ext i : list nat) : list nat :=
  match length ext with
  | 1 => next1 o ext i
  | 2 => next2 o ext i
  | _ => next3 o ext i
  end.

(** domain_utils.hpp 471-479. *)
Fixpoint valid (ext i : list nat) : bool :=
  match ext, i with
  | e :: ext', x :: i' => if e <=? x then false else valid ext' i'
  | _, _ => true
  end.

(** The loop; [None] when the fuel is exhausted. *)
Fixpoint traverse (fuel : nat) (o ext i : list nat) : option (list (list nat)) :=
  match fuel with
  | 0 => None
  | S f => if valid ext i then
             r <- traverse f o ext (next o ext i) ;; Some (i :: r)
           else Some []
  end.

(** order_traits.hpp 43-62 (is_order_valid): the valid dimension orders,
    most significant dimension first. *)
Definition order_valid (D : nat) (o : list nat) : bool :=
  match D, o with
  | 1, [0] => true
  | 2, [0;1] | 2, [1;0] => true
  | 3, [0;1;2] | 3, [0;2;1] | 3, [1;0;2] | 3, [1;2;0] | 3, [2;0;1] | 3, [2;1;0] => true
  | _, _ => false
  end.

(** * Specification *)

(** [i] is an index of a block of extent [ext]. *)
Definition in_range (ext i : list nat) : Prop := Forall2 lt i ext.

(** Lexicographic order, dimensions compared in the order [o]. *)
Fixpoint lexlt (o : list nat) (a b : list nat) : Prop :=
  match o with
  | [] => False
  | d :: o' => coord a d < coord b d \/ (coord a d = coord b d /\ lexlt o' a b)
  end.
