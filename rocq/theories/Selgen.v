(** Model of selection, generation and clipping (src/vsip/selgen.hpp).
    A vector is the list of its elements; a view addressed by an index of
    one to three components is a partial function on index tuples. *)
From Coq Require Import ZArith List Lia Bool Arith.
From Verif Require Import Base Layout.
Import ListNotations.
Local Open Scope nat_scope.

(** ** indexbool *)
(** selgen.hpp 23-32. *)
Definition indexbool1 (source : list bool) (indices : list nat) : option (nat * list nat) :=
  loop (fun i '(cursor, ix) =>
          b <- bget source i ;;
          if b then
            if cursor <? length ix then ix' <- bput ix (cursor + 1 - 1) i ;; Some (cursor + 1, ix')
            else Some (cursor + 1, ix)
          else Some (cursor, ix))
       0 (length source) (0, indices).
(** selgen.hpp 34-44; the matrix has [rows] x [cols] elements. *)
Definition indexbool2 (rows cols : nat) (get : nat -> nat -> option bool) (indices : list (nat * nat)) : option (nat * list (nat * nat)) :=
  loop (fun r => loop (fun c '(cursor, ix) =>
          b <- get r c ;;
          if b then
            if cursor <? length ix then ix' <- bput ix (cursor + 1 - 1) (r, c) ;; Some (cursor + 1, ix')
            else Some (cursor + 1, ix)
          else Some (cursor, ix)) 0 cols)
       0 rows (0, indices).

(** ** first (selgen.hpp 74-88) *)
Fixpoint first_from {A B} (p : A -> B -> bool) (v : list A) (w : list B) (i n : nat) : option nat :=
  match n with
  | 0 => Some (length v)
  | S n' => x <- bget v i ;; y <- bget w i ;; if p x y then Some i else first_from p v w (i + 1) n'
  end.
Definition first {A B} (begin : nat) (p : A -> B -> bool) (v : list A) (w : list B) : option nat :=
  assert (length v =? length w) ;;
  if length v <? begin then Some begin else first_from p v w begin (length v - begin).

(** ** gather and scatter *)
Section Views.
Context {A : Type}.
(** A view: defined exactly on its indices. *)
Definition view := list nat -> option A.
Definition vget (v : view) (i : list nat) : option A := v i.
Definition vput (v : view) (i : list nat) (x : A) : option view :=
  match v i with Some _ => Some (fun j => if list_eq_dec Nat.eq_dec j i then Some x else v j) | None => None end.
(** selgen.hpp 101-112; the result vector starts uninitialised. *)
Definition gather (source : view) (indices : list (list nat)) : option (list (option A)) :=
  loop (fun i r => ix <- bget indices i ;; x <- vget source ix ;; bput r i (Some x))
       0 (length indices) (repeat None (length indices)).
(** selgen.hpp 116-126. *)
Definition scatter (source : list A) (indices : list (list nat)) (destination : view) : option view :=
  loop (fun i d => ix <- bget indices i ;; x <- bget source i ;; vput d ix x) 0 (length indices) destination.
End Views.
Arguments view : clear implicits.

(** ** ramp (selgen.hpp 47-71, 128-142; expr/generator.hpp get) *)
Definition ring_nat (K : CRing) : nat -> K := fix f n := match n with 0 => r0 | S n' => radd (f n') r1 end.
Definition ramp {K : CRing} (a b : K) (len : nat) : option (nat -> option K) :=
  assert (0 <? len) ;; Some (fun i => assert (i <? len) ;; Some (radd a (rmul (ring_nat K i) b))).

(** ** clip and invclip (selgen.hpp 146-192); elements are integers *)
Definition clip_functor (lower upper lval uval t : Z) : Z :=
  if (t <=? lower)%Z then lval else if (t <? upper)%Z then t else uval.
Definition invclip_functor (lower middle upper lval uval t : Z) : Z :=
  if (t <? lower)%Z then t else if (t <? middle)%Z then lval else if (t <=? upper)%Z then uval else t.
(** selgen.hpp 218-254: a lazy view; element i is computed from element i. *)
Definition clip (v : view Z) (lower upper lval uval : Z) : view Z := fun i => x <- v i ;; Some (clip_functor lower upper lval uval x).
Definition invclip (v : view Z) (lower middle upper lval uval : Z) : view Z := fun i => x <- v i ;; Some (invclip_functor lower middle upper lval uval x).

(** ** swap (selgen.hpp 259-285) *)
(** A stored block: its layout, extent and cells (storage/block.hpp 216-264:
    get(i) is cell i, get(i,j) the cell given by the layout; size() is the
    product of the sizes). *)
Record block (A : Type) := { lay : applied; ext : list Z; cells : list A }.
Arguments lay {A}. Arguments ext {A}. Arguments cells {A}.
Definition block_size {A} (b : block A) : nat := Z.to_nat (fold_right Z.mul 1%Z (ext b)).
Definition element {A} (b : block A) (i : list Z) : option A := a <- index (lay b) i ;; bget (cells b) (Z.to_nat a).
Definition with_cells {A} (b : block A) (c : list A) : block A := {| lay := lay b; ext := ext b; cells := c |}.
(** One iteration: [tmp = block1.get(i); block1.put(i, block2.get(i)); block2.put(i, tmp)]. *)
Definition swap {A} (b1 b2 : block A) : option (block A * block A) :=
  assert (block_size b1 =? block_size b2) ;;
  r <- loop (fun i '(c1, c2) => tmp <- bget c1 i ;; x <- bget c2 i ;; c1' <- bput c1 i x ;; c2' <- bput c2 i tmp ;; Some (c1', c2'))
            0 (block_size b1) (cells b1, cells b2) ;;
  Some (with_cells b1 (fst r), with_cells b2 (snd r)).

(** * Specification *)
(** The positions of the true elements, increasing / in row-major order. *)
Definition true_positions (s : list bool) : list nat := filter (fun i => nth i s false) (seq 0 (length s)).
Definition true_positions2 (rows cols : nat) (v : nat -> nat -> bool) : list (nat * nat) :=
  filter (fun p => v (fst p) (snd p)) (list_prod (seq 0 rows) (seq 0 cols)).
(** [out] is [old] with as much of [l] as fits written over its beginning. *)
Definition overwritten {A} (old l out : list A) : Prop :=
  length out = length old /\ forall k, k < length old -> nth_error out k = if k <? length l then nth_error l k else nth_error old k.
