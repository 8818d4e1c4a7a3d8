(** Conversion of complex views to and from polar coordinates, and complex views made from two real
    ones: src/vsip/complex.hpp.  Memory holds scalars; a complex element occupies two cells.  The scalar
    functions abs, arg and polar are parameters.  Expressions are assigned by the loops of
    assign/loop_fusion.hpp, in one and two dimensions; evaluation of nested expressions is C56. *)
From Coq Require Import ZArith List Bool Arith.
From Verif Require Import Base.
Import ListNotations.
Local Open Scope nat_scope.

(** Is the index within the extents? *)
Fixpoint within (i sz : list nat) : bool :=
  match i, sz with
  | [], [] => true
  | x :: i', n :: sz' => (x <? n) && within i' sz'
  | _, _ => false
  end.

(** A real view: extents, and the cell of every element (C19 and C20 say what these are). *)
Record rview := { rsz : list nat; rat : list nat -> Z }.
(** A complex view: extents, and the cells of the real and imaginary part of every element. *)
Record cview := { csz : list nat; re_at : list nat -> Z; im_at : list nat -> Z }.
(** vector.hpp, real() and imag() of a complex view; expr/component (C22). *)
Definition real_of (z : cview) : rview := {| rsz := csz z; rat := re_at z |}.
Definition imag_of (z : cview) : rview := {| rsz := csz z; rat := im_at z |}.

(** strided.hpp, storage_traits of the formats: the vector whose element [i] is number [off + i * str] of a
    block in the array or interleaved format starting at the cell [base]; and in the split format with two
    starting cells. *)
Definition strided (off str : Z) (i : list nat) : Z :=
  match i with [k] => (off + Z.of_nat k * str)%Z | _ => 0%Z end.
Definition interleaved (base off str : Z) (n : nat) : cview :=
  {| csz := [n]; re_at := fun i => (base + 2 * strided off str i)%Z; im_at := fun i => (base + 2 * strided off str i + 1)%Z |}.
Definition split (rbase ibase off str : Z) (n : nat) : cview :=
  {| csz := [n]; re_at := fun i => (rbase + strided off str i)%Z; im_at := fun i => (ibase + strided off str i)%Z |}.
Definition plain (base off str : Z) (n : nat) : rview :=
  {| rsz := [n]; rat := fun i => (base + strided off str i)%Z |}.

Section Polar.
Context {V : Type}.

(** get and put; None is an index out of range or memory that is not there. *)
Definition rget (m : mem V) (b : rview) (i : list nat) : option V := assert (within i (rsz b)) ;; mload m (rat b i).
Definition rput (m : mem V) (b : rview) (i : list nat) (x : V) : option (mem V) :=
  assert (within i (rsz b)) ;; mstore m (rat b i) x.
Definition cget (m : mem V) (b : cview) (i : list nat) : option (V * V) :=
  assert (within i (csz b)) ;; x <- mload m (re_at b i) ;; y <- mload m (im_at b i) ;; Some (x, y).
Definition cput (m : mem V) (b : cview) (i : list nat) (x : V * V) : option (mem V) :=
  assert (within i (csz b)) ;; m <- mstore m (re_at b i) (fst x) ;; mstore m (im_at b i) (snd x).

(** size(): the number of elements. *)
Definition size (sz : list nat) : nat := fold_right Nat.mul 1 sz.

(** complex.hpp 44-57, recttopolar of a vector: [dbg] says that assertions are compiled, [cv] is the
    conversion to the value type of the results, [mag] and [ph] are abs and arg. *)
Definition recttopolar (dbg : bool) (cv : V -> V) (mag ph : V * V -> V) (z : cview) (rho theta : rview) (m : mem V) : option (mem V) :=
  assert (negb dbg || (size (csz z) =? size (rsz rho)) && (size (csz z) =? size (rsz theta))) ;;
  loop (fun i m =>
    tmp <- cget m z [i] ;;
    m <- rput m rho [i] (cv (mag tmp)) ;;
    rput m theta [i] (cv (ph tmp))) 0 (size (csz z)) m.

(** complex.hpp 69-87, 113-131: the element functions [f] of polartorect(rho, theta) and cmplx(real, imag), as the
    expression node gets an element (expr/binary.hpp get). *)
Definition node (f : V -> V -> V * V) (a b : rview) (m : mem V) (i : list nat) : option (V * V) :=
  x <- rget m a i ;; y <- rget m b i ;; Some (f x y).
(** assign/loop_fusion.hpp 23-33 (one dimension) and 35-65 (two, by rows or by columns), with such a node on the right. *)
Inductive order := Rows | Columns.
Definition assign1 (f : V -> V -> V * V) (w : cview) (a b : rview) (m : mem V) : option (mem V) :=
  loop (fun i m => x <- node f a b m [i] ;; cput m w [i] x) 0 (nth 0 (csz w) 0) m.
Definition assign2 (o : order) (f : V -> V -> V * V) (w : cview) (a b : rview) (m : mem V) : option (mem V) :=
  let rows := nth 0 (csz w) 0 in let cols := nth 1 (csz w) 0 in
  match o with
  | Rows => loop (fun i m => loop (fun j m => x <- node f a b m [i; j] ;; cput m w [i; j] x) 0 cols m) 0 rows m
  | Columns => loop (fun j m => loop (fun i m => x <- node f a b m [i; j] ;; cput m w [i; j] x) 0 rows m) 0 cols m
  end.
(** complex.hpp 80-87, expr::op::Complex. *)
Definition mk_complex (x y : V) : V * V := (x, y).

(** * Specification *)

(** [a] holds the value [x]; the cells of the elements of views; *)
Definition rcell (b : rview) (a : Z) : Prop := exists i, within i (rsz b) = true /\ a = rat b i.
Definition ccell (b : cview) (a : Z) : Prop := exists i, within i (csz b) = true /\ (a = re_at b i \/ a = im_at b i).
(** no two of the elements of the two real views share a cell; *)
Definition apart (a b : rview) : Prop :=
  (forall i j, within i (rsz a) = true -> within j (rsz a) = true -> rat a i = rat a j -> i = j) /\
  (forall i j, within i (rsz b) = true -> within j (rsz b) = true -> rat b i = rat b j -> i = j) /\
  (forall i j, within i (rsz a) = true -> within j (rsz b) = true -> rat a i <> rat b j).
(** all the cells of a view are there; *)
Definition there (m : mem V) (b : rview) : Prop := forall a, rcell b a -> m a <> None.
(** element [i] of a view in memory is [x]; *)
Definition holds (m : mem V) (b : rview) (i : list nat) (x : V) : Prop := m (rat b i) = Some x.
(** no element of the real views, except the one at the same index, is in a cell of the complex view. *)
Definition own_cells (z : cview) (a b : rview) : Prop :=
  forall i j, within i (csz z) = true -> within j (csz z) = true -> i <> j ->
    rat a i <> re_at z j /\ rat a i <> im_at z j /\ rat b i <> re_at z j /\ rat b i <> im_at z j.
End Polar.
