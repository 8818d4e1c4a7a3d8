(** Model of the frequency swap (src/ovxx/signal/freqswap.hpp and
    src/vsip/impl/signal/freqswap.hpp).
    A block is a range of valid indices together with the address of every
    element; accesses outside the range or to unallocated memory are [None].
    Element types are abstract (elements are only copied); conversion
    between different input and output element types is not modelled. *)
From Coq Require Import ZArith List Lia Bool Arith.
From Verif Require Import Base.
Import ListNotations.
Local Open Scope nat_scope.

Section Freqswap.
Context {V : Type}.
(** One- and two-dimensional blocks in memory; [blk] is the identity of the
    block object. *)
Record block1 := { len : nat; addr1 : nat -> Z }.
Record block2 := { rows : nat; cols : nat; addr2 : nat -> nat -> Z; blk : nat }.
Definition get1 (m : mem V) (b : block1) (i : nat) : option V := assert (i <? len b) ;; mload m (addr1 b i).
Definition put1 (m : mem V) (b : block1) (i : nat) (v : V) : option (mem V) := assert (i <? len b) ;; mstore m (addr1 b i) v.
Definition get2 (m : mem V) (b : block2) (i j : nat) : option V := assert (i <? rows b) ;; assert (j <? cols b) ;; mload m (addr2 b i j).
Definition put2 (m : mem V) (b : block2) (i j : nat) (v : V) : option (mem V) := assert (i <? rows b) ;; assert (j <? cols b) ;; mstore m (addr2 b i j) v.

(** freqswap.hpp 30-55. *)
Definition swap1 (out inp : block1) (m : mem V) : option (mem V) :=
  let M := len inp in
  let ia := M mod 2 in
  mid <- get1 m inp (M / 2) ;;
  m <- loop (fun i m =>
               let ii := M / 2 + i in
               tmp <- get1 m inp (ii + ia) ;;
               x <- get1 m inp i ;; m <- put1 m out ii x ;;
               put1 m out i tmp)
            0 (M / 2) m ;;
  if ia =? 0 then Some m else put1 m out (M - 1) mid.

(** The subviews row(i) and col(j). *)
Definition row (b : block2) (i : nat) : block1 := {| len := cols b; addr1 := addr2 b i |}.
Definition col (b : block2) (j : nat) : block1 := {| len := rows b; addr1 := fun i => addr2 b i j |}.
(** block_traits.hpp 281-285, detail/util.hpp 38-48: the blocks are the same object. *)
Definition is_same_block (a b : block2) : bool := blk a =? blk b.

(** freqswap.hpp 70-108: the bodies of the two outer loops are statement for
    statement the loop of [swap1] on row i, respectively column j. *)
Definition swap2_same (out inp : block2) (m : mem V) : option (mem V) :=
  m <- loop (fun i m => swap1 (row out i) (row inp i) m) 0 (rows inp) m ;;
  loop (fun j m => swap1 (col out j) (col inp j) m) 0 (cols inp) m.
(** freqswap.hpp 109-147. *)
Definition swap2_other (out inp : block2) (m : mem V) : option (mem V) :=
  let M := rows inp in let N := cols inp in
  let ia := M mod 2 in let ja := N mod 2 in
  m <- loop (fun i m =>
         loop (fun j m =>
           let ii := M / 2 + i in let jj := N / 2 + j in
           tmp <- get2 m inp (ii + ia) (jj + ja) ;;
           x <- get2 m inp i j ;; m <- put2 m out ii jj x ;;
           m <- put2 m out i j tmp ;;
           tmp <- get2 m inp (ii + ia) j ;;
           x <- get2 m inp i (jj + ja) ;; m <- put2 m out ii j x ;;
           put2 m out i jj tmp) 0 (N / 2) m) 0 (M / 2) m ;;
  m <- (if ia =? 0 then Some m else
         let i := M / 2 in let ii := M - 1 in
         loop (fun j m =>
           let jj := N / 2 + j in
           x <- get2 m inp i j ;; m <- put2 m out ii jj x ;;
           x <- get2 m inp i (jj + ja) ;; put2 m out ii j x) 0 (N / 2) m) ;;
  m <- (if ja =? 0 then Some m else
         let j := N / 2 in let jj := N - 1 in
         loop (fun i m =>
           let ii := M / 2 + i in
           x <- get2 m inp i j ;; m <- put2 m out ii jj x ;;
           x <- get2 m inp (ii + ia) j ;; put2 m out i jj x) 0 (M / 2) m) ;;
  if (ia =? 0) || (ja =? 0) then Some m else x <- get2 m inp (M / 2) (N / 2) ;; put2 m out (M - 1) (N - 1) x.
(** freqswap.hpp 57-148. *)
Definition swap2 (out inp : block2) (m : mem V) : option (mem V) :=
  if is_same_block inp out then swap2_same out inp m else swap2_other out inp m.

(** vsip/impl/signal/freqswap.hpp 47-69, freqswap<D>(in, out): [byrow] is D == row.
    As in the code, both loops run up to the number of rows; col(c) requires
    a valid column index. *)
Definition swap_axis (byrow : bool) (out inp : block2) (m : mem V) : option (mem V) :=
  assert (rows inp =? rows out) ;; assert (cols inp =? cols out) ;;
  if byrow then loop (fun r m => swap1 (row out r) (row inp r) m) 0 (rows inp) m
  else loop (fun c m => assert (c <? cols inp) ;; swap1 (col out c) (col inp c) m) 0 (rows inp) m.

(** * Specification *)
(** Every element of the block is allocated memory of its own. *)
Definition wf1 (m : mem V) (b : block1) : Prop :=
  (forall i, i < len b -> m (addr1 b i) <> None) /\
  (forall i i', i < len b -> i' < len b -> addr1 b i = addr1 b i' -> i = i').
Definition wf2 (m : mem V) (b : block2) : Prop :=
  (forall i j, i < rows b -> j < cols b -> m (addr2 b i j) <> None) /\
  (forall i j i' j', i < rows b -> j < cols b -> i' < rows b -> j' < cols b -> addr2 b i j = addr2 b i' j' -> i = i' /\ j = j').
Definition disjoint1 (a b : block1) : Prop := forall i j, i < len a -> j < len b -> addr1 a i <> addr1 b j.
Definition disjoint2 (a b : block2) : Prop :=
  forall i j i' j', i < rows a -> j < cols a -> i' < rows b -> j' < cols b -> addr2 a i j <> addr2 b i' j'.
(** Where the element [i] of [n] goes. *)
Definition shifted (n i : nat) : nat := (i + n / 2) mod n.
(** [m'] is [m] with the swapped [inp] in [out] and nothing else changed. *)
Definition swapped1 (out inp : block1) (m m' : mem V) : Prop :=
  (forall i, i < len inp -> m' (addr1 out (shifted (len inp) i)) = m (addr1 inp i)) /\
  (forall a, (forall i, i < len out -> a <> addr1 out i) -> m' a = m a).
Definition swapped2 (out inp : block2) (m m' : mem V) : Prop :=
  (forall i j, i < rows inp -> j < cols inp -> m' (addr2 out (shifted (rows inp) i) (shifted (cols inp) j)) = m (addr2 inp i j)) /\
  (forall a, (forall i j, i < rows out -> j < cols out -> a <> addr2 out i j) -> m' a = m a).
(** The same along one dimension only. *)
Definition swapped_rows (out inp : block2) (m m' : mem V) : Prop :=
  (forall i j, i < rows inp -> j < cols inp -> m' (addr2 out i (shifted (cols inp) j)) = m (addr2 inp i j)) /\
  (forall a, (forall i j, i < rows out -> j < cols out -> a <> addr2 out i j) -> m' a = m a).
Definition swapped_cols (out inp : block2) (m m' : mem V) : Prop :=
  (forall i j, i < rows inp -> j < cols inp -> m' (addr2 out (shifted (rows inp) i) j) = m (addr2 inp i j)) /\
  (forall a, (forall i j, i < rows out -> j < cols out -> a <> addr2 out i j) -> m' a = m a).
End Freqswap.
