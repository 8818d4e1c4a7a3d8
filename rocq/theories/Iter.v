(** Iterators over the values of a vector and over equally spaced values
    (src/ovxx/{vector_iterator,value_iterator}.hpp), the processors of a
    subblock of a map, and a small specification. *)
From Coq Require Import ZArith List Lia Bool Arith.
From Verif Require Import Base.
Import ListNotations.
Open Scope Z_scope.

(** int and unsigned int (processor_type, vsip/support.hpp 139). *)
Definition u32 (z : Z) : Z := z mod 2 ^ 32.
Definition s32 (z : Z) : Z := let r := z mod 2 ^ 32 in if r <? 2 ^ 31 then r else r - 2 ^ 32.

(** ** value_iterator<processor_type, unsigned> (value_iterator.hpp 14-80) *)

Record viter := VI { i_cur : Z; i_delta : Z }.

(** operator++, operator-- (l. 40-41), operator+=, operator-= (l. 42-43: the
    int is converted to unsigned for the product). *)
Definition vi_next (i : viter) : viter := VI (u32 (i_cur i + i_delta i)) (i_delta i).
Definition vi_prev (i : viter) : viter := VI (u32 (i_cur i - i_delta i)) (i_delta i).
Definition vi_advance (i : viter) (dx : Z) : viter := VI (u32 (i_cur i + u32 (dx * i_delta i))) (i_delta i).
Definition vi_retreat (i : viter) (dx : Z) : viter := VI (u32 (i_cur i - u32 (dx * i_delta i))) (i_delta i).

(** operator++(int), operator--(int) (l. 45-48) return a reference to a local
    variable; using the result is undefined.  They are not modelled. *)

(** operator==, !=, < (l. 50-57); operator- (l. 59-60): unsigned difference,
    unsigned quotient, converted to int; operator* (l. 75). *)
Definition vi_eq (i j : viter) : bool := (i_cur i =? i_cur j) && (i_delta i =? i_delta j).
Definition vi_ne (i j : viter) : bool := negb (i_cur i =? i_cur j) || negb (i_delta i =? i_delta j).
Definition vi_lt (i j : viter) : bool := i_cur i <? i_cur j.
Definition vi_diff (i j : viter) : option Z :=
  if i_delta i =? 0 then None else Some (s32 (u32 (i_cur i - i_cur j) / i_delta i)).
Definition vi_get (i : viter) : option Z := Some (i_cur i).

(** ** vector_iterator<Vector<processor_type> > (vector_iterator.hpp 15-67) *)

(** The view: the block's address and contents; the position (index_type). *)
Record witer := WI { w_block : nat; w_data : list Z; w_idx : Z }.

Definition wi_next (i : witer) : witer := WI (w_block i) (w_data i) (u64 (w_idx i + 1)).
Definition wi_prev (i : witer) : witer := WI (w_block i) (w_data i) (u64 (w_idx i - 1)).
Definition wi_advance (i : witer) (dx : Z) : witer := WI (w_block i) (w_data i) (u64 (w_idx i + dx)).
Definition wi_retreat (i : witer) (dx : Z) : witer := WI (w_block i) (w_data i) (u64 (w_idx i - dx)).
(** operator==, != (l. 36-40): the block of the view is compared with
    itself, not with the other iterator's. *)
Definition wi_eq (i j : witer) : bool := (w_block i =? w_block i)%nat && (w_idx i =? w_idx j).
Definition wi_ne (i j : witer) : bool := negb (w_block i =? w_block i)%nat || negb (w_idx i =? w_idx j).
(** operator< (l. 42-43), operator- (l. 45-46: converted to int). *)
Definition wi_lt (i j : witer) : bool := w_idx i <? w_idx j.
Definition wi_diff (i j : witer) : Z := s32 (u64 (w_idx i - w_idx j)).
(** operator* (l. 61-62): view_.get(idx_), which requires idx_ < size(). *)
Definition wi_get (i : witer) : option Z :=
  if (0 <=? w_idx i) && (w_idx i <? Z.of_nat (length (w_data i))) then nth_error (w_data i) (Z.to_nat (w_idx i)) else None.

(** ** Ranges of processors *)

(** The iterators of a subblock.  Map (vsip/map.hpp 796-830), Local_map
    (vsip/impl/local_map.hpp 51-54) and subset_map (subset_map_decl.hpp 67-77):
    the one processor [p] and the value after it. *)
Definition one_begin (p : Z) : viter := VI p 1.
Definition one_end (p : Z) : viter := VI (u32 (p + 1)) 1.

(** Replicated_map (replicated_map.hpp 128-138) and scalar_map
    (scalar_map.hpp 50-60): begin and end of the processor set.  The set is
    converted to Vector<processor_type>, which copies it (vsip/impl/vector.hpp
    175-177), so the two iterators hold different blocks, [b] and [b']. *)
Definition set_begin (b : nat) (ps : list Z) : witer := WI b ps 0.
Definition set_end (b' : nat) (ps : list Z) : witer := WI b' ps (Z.of_nat (length ps)).

(** [for (iterator i = b; i != e; ++i) { if ( *i == proc) return true;} return
    false;]: processor_has_block (map_traits.hpp 63-75).  [fuel] bounds the
    number of steps; [None] if it is used up or the behaviour is undefined. *)
Section Loop.
Variables (I : Type) (ne : I -> I -> bool) (next : I -> I) (get : I -> option Z).
Fixpoint has_processor (fuel : nat) (i e : I) (proc : Z) : option bool :=
  if ne i e then
    match fuel with
    | O => None
    | S n =>
      x <- get i ;;
      if x =? proc then Some true else has_processor n (next i) e proc
    end
  else Some false.

(** The same loop collecting the values. *)
Fixpoint visit (fuel : nat) (i e : I) : option (list Z) :=
  if ne i e then
    match fuel with
    | O => None
    | S n => x <- get i ;; r <- visit n (next i) e ;; Some (x :: r)
    end
  else Some [].
End Loop.

(** * Specification *)

(** A processor number; an int. *)
Definition proc (p : Z) : Prop := 0 <= p < 4294967296.
Definition int (n : Z) : Prop := -2147483648 <= n < 2147483648.

(** An iterator on an element of a vector. *)
Definition on (i : witer) : Prop := 0 <= w_idx i < 18446744073709551616.
