(** Model of Copy_chain (src/ovxx/parallel/copy_chain.hpp, copy_chain.cpp).
    Memory is a partial map from byte addresses to bytes.
    Simplifications: addresses do not wrap around the address space, the
    int / unsigned members hold their values unnarrowed, data_size_ does
    not wrap; memcpy copies its bytes in increasing order (the areas do not
    overlap in any theorem). *)
From Coq Require Import List Arith ZArith Lia Bool.
From Verif Require Import Base.
Import ListNotations.

(** copy_chain.hpp 25-35: Record. *)
Record rec := mkrec { start : Z; esz : nat; stride : Z; len : nat }.
(** copy_chain.hpp 78-79. *)
Record chain := mkchain { data_size : nat; recs : list rec }.

(** copy_chain.hpp 40-43. *)
Definition empty_chain : chain := mkchain 0 [].
(** copy_chain.hpp 46-50: add. *)
Definition add (c : chain) (st : Z) (es : nat) (sd : Z) (ln : nat) : chain :=
  mkchain (data_size c + es * ln) (recs c ++ [mkrec st es sd ln]).
(** copy_chain.hpp 53-58: append. *)
Definition append (c d : chain) : chain :=
  mkchain (data_size c + data_size d) (recs c ++ recs d).
(** copy_chain.cpp 36-50: append_offset. *)
Definition append_offset (c : chain) (o : Z) (d : chain) : chain :=
  mkchain (data_size c + data_size d)
          (recs c ++ map (fun r => mkrec (start r + o)%Z (esz r) (stride r) (len r)) (recs d)).

Section Copy.
Context {V : Type}.

Definition move (m : mem V) (ds : Z * Z) : option (mem V) :=
  v <- mload m (snd ds) ;; mstore m (fst ds) v.
Fixpoint moves (m : mem V) (l : list (Z * Z)) : option (mem V) :=
  match l with [] => Some m | x :: r => m' <- move m x ;; moves m' r end.
Definition memcpy (m : mem V) (d s : Z) (n : nat) : option (mem V) :=
  moves m (map (fun k => (d + Z.of_nat k, s + Z.of_nat k)%Z) (seq 0 n)).

(** copy_chain.cpp 79-86: the inner loop; state (memory, dest, src, size). *)
Definition elem_step (r : rec) (_ : nat) (st : mem V * Z * Z * nat) : option (mem V * Z * Z * nat) :=
  let '(m, dest, src, size) := st in
  assert (esz r <=? size) ;;
  m' <- memcpy m dest src (esz r) ;;
  Some (m', (dest + Z.of_nat (esz r))%Z, (src + stride r * Z.of_nat (esz r))%Z, size - esz r).
(** copy_chain.cpp 65-88; state (memory, dest, size). *)
Fixpoint gather (l : list rec) (st : mem V * Z * nat) : option (mem V * Z * nat) :=
  match l with
  | [] => Some st
  | r :: l' =>
      let '(m, dest, size) := st in
      if (stride r =? 1)%Z then
        assert (len r * esz r <=? size) ;;
        m' <- memcpy m dest (start r) (len r * esz r) ;;
        gather l' (m', (dest + Z.of_nat (len r * esz r))%Z, size - len r * esz r)
      else
        st' <- loop (elem_step r) 0 (len r) (m, dest, start r, size) ;;
        let '(m', dest', _, size') := st' in gather l' (m', dest', size')
  end.
(** copy_chain.cpp 57-90: copy_into(dest, size). *)
Definition copy_into_buffer (m : mem V) (c : chain) (dest : Z) (size : nat) : option (mem V) :=
  assert (size =? data_size c) ;;
  st <- gather (recs c) (m, dest, size) ;;
  assert (snd st =? 0) ;; Some (fst (fst st)).

(** copy_chain.cpp 134-139 (and 141-146): when the current record is
    used up, go to the next one.  [l] is the list from the current record
    on, never empty. *)
Definition advance (es : nat) (r : rec) (l' : list rec) (p : Z) (i : nat) : option (list rec * Z * nat) :=
  if i =? len r then
    match l' with
    | [] => Some ([], p, i)
    | r' :: _ => assert (esz r' =? es) ;; Some (l', start r', 0)
    end
  else Some (r :: l', p, i).
(** copy_chain.cpp 115-150: the while loop and the final precondition.  A
    length minus an index beyond it (only with empty records) is
    undefined here. *)
Fixpoint chain_loop (fuel : nat) (es : nat) (m : mem V) (src : list rec) (sp : Z) (si : nat)
    (dst : list rec) (dp : Z) (di : nat) : option (mem V) :=
  match fuel with
  | 0 => None
  | S f =>
      match src, dst with
      | s :: src', d :: dst' =>
          elements <- (if ((stride s =? 1) && (stride d =? 1))%Z
                       then assert ((si <=? len s) && (di <=? len d)) ;;
                            Some (Nat.min (len s - si) (len d - di))
                       else Some 1) ;;
          m' <- memcpy m dp sp (elements * es) ;;
          let dp' := (dp + Z.of_nat (elements * es) * stride d)%Z in
          let sp' := (sp + Z.of_nat (elements * es) * stride s)%Z in
          a <- advance es s src' sp' (si + elements) ;;
          b <- advance es d dst' dp' (di + elements) ;;
          chain_loop f es m' (fst (fst a)) (snd (fst a)) (snd a) (fst (fst b)) (snd (fst b)) (snd b)
      | [], [] => Some m
      | _, _ => None
      end
  end.
(** copy_chain.cpp 98-151: copy_into(dst_chain); both begin() iterators are
    dereferenced first. *)
Definition copy_into_chain (fuel : nat) (m : mem V) (c d : chain) : option (mem V) :=
  match recs c, recs d with
  | s :: _, t :: _ =>
      assert (esz t =? esz s) ;;
      chain_loop fuel (esz s) m (recs c) (start s) 0 (recs d) (start t) 0
  | _, _ => None
  end.
End Copy.

(** * Specification *)

(** The bytes of element [i] of a record, then of the record, then of a
    chain, in chain order. *)
Definition elem_bytes (r : rec) (i : nat) : list Z :=
  map (fun b => (start r + Z.of_nat i * stride r * Z.of_nat (esz r) + Z.of_nat b)%Z) (seq 0 (esz r)).
Definition rec_bytes (r : rec) : list Z := flat_map (elem_bytes r) (seq 0 (len r)).
Definition bytes (c : chain) : list Z := flat_map rec_bytes (recs c).

(** Chains a program can build. *)
Inductive built : chain -> Prop :=
| b_empty : built empty_chain
| b_add c st es sd ln : built c -> built (add c st es sd ln)
| b_append c d : built c -> built d -> built (append c d)
| b_offset c o d : built c -> built d -> built (append_offset c o d).

Definition readable {V} (m : mem V) (l : list Z) : Prop := forall a, In a l -> exists v, m a = Some v.
Definition disjoint (a b : list Z) : Prop := forall x, In x a -> ~ In x b.
(** [n] bytes from address [a] on. *)
Definition area (a : Z) (n : nat) : list Z := map (fun k => (a + Z.of_nat k)%Z) (seq 0 n).
