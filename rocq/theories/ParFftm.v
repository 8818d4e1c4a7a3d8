(** * Transforms of the rows or columns of a distributed matrix, by value

    Model of the assignment out = fftm(in) (src/ovxx/signal/fft.hpp 329-361,
    src/ovxx/signal/fft/functor.hpp, fft/workspace.hpp 325-387, 462-479,
    src/ovxx/parallel/assign.hpp 95-127) to a distributed matrix.  Both
    matrices are stored and have maps of the class Map.  The transform of one
    line is a parameter: [F n x k] is point k of the scaled transform of the n
    points x (what the lines of the generic back end compute is the subject
    of Dft).  Copies to other layouts, which keep the elements, are left out. *)
From Coq Require Import List Arith Lia Bool.
From Verif Require Import Base Dist Traversal Map.
Import ListNotations.
Local Open Scope nat_scope.

(** Complex to complex, real to complex, complex to real. *)
Inductive kinds := CC | RC | CR.

(** parallel/domain_utils.hpp, subblock_domain<2> and get_local_block: the
    sizes of the part of a matrix that processor [pr] holds; an empty matrix
    on a processor without a subblock (map.hpp 928-961). *)
Definition local_sizes (u : umap) (lens : list nat) (pr : nat) : option (list nat) :=
  m <- apply_map u lens ;;
  match map_subblock m (u_pvec u) pr with
  | None => Some (map (fun _ => 0) lens)
  | Some sb => map_subblock_extent m sb
  end.

(** The sizes of a matrix along the transforms and across them; [axis] is
    the dimension that is transformed (1 - A, fft/backend.hpp). *)
Definition along (axis : nat) (ext : list nat) : nat := nth axis ext 0.
Definition across (axis : nat) (ext : list nat) : nat := nth (1 - axis) ext 0.

(** What one processor does (workspace.hpp 325-387, dft.hpp 881-1018).  The
    sizes passed to the back end are those of the input, for complex to real
    those of the output.  A line of n points is read and written whole; the
    complex side of a real transform has n / 2 + 1 points.  [None]: a line
    is read or written beyond the sizes of the local matrix, the last one
    beyond its memory.  The result maps the local indices to the stored
    values; [None] there: not written. *)
Definition local_fftm {X Y} (F : nat -> (nat -> X) -> nat -> Y) (k : kinds) (axis : nat)
    (ein eout : list nat) (x : list nat -> X) : option (list nat -> option Y) :=
  let e := match k with CR => eout | _ => ein end in
  let n := along axis e in
  let lines := across axis e in
  let r := match k with CR => n / 2 + 1 | _ => n end in
  let w := match k with RC => n / 2 + 1 | _ => n end in
  assert ((lines =? 0) ||
          (lines <=? across axis ein) && (lines <=? across axis eout) &&
          (r <=? along axis ein) && (w <=? along axis eout)) ;;
  Some (fun l =>
    match l with
    | [i; j] =>
        if axis =? 0
        then if (j <? lines) && (i <? w) then Some (F n (fun q => x [q; j]) i) else None
        else if (i <? lines) && (j <? w) then Some (F n (fun q => x [i; q]) j) else None
    | _ => None
    end).

(** The assignment.  The check that the transformed dimension is not divided
    is commented out (fft.hpp 336-341).  The expression is not to be
    reorganized (expr/unary.hpp), so that with maps that differ the assignment
    throws unimplemented ([None]); otherwise every processor transforms its
    part (functor.hpp 76-95). *)
Definition fftm_assign {X Y} (F : nat -> (nat -> X) -> nat -> Y) (k : kinds) (axis : nat)
    (mout : umap) (lout : list nat) (min : umap) (lin : list nat) (x : nat -> list nat -> X)
    : option (nat -> option (list nat -> option Y)) :=
  assert (map_eq mout min) ;;
  Some (fun pr =>
    ein <- local_sizes min lin pr ;;
    eout <- local_sizes mout lout pr ;;
    local_fftm F k axis ein eout (x pr)).

(** * Specification *)

(** The sizes of the input and of the output for [lines] transforms of [n]
    points: the points of a column if [axis] is 0, of a row otherwise. *)
Definition sizes (axis lines points : nat) : list nat :=
  if axis =? 0 then [points; lines] else [lines; points].
Definition points_in (k : kinds) (n : nat) : nat := match k with CR => n / 2 + 1 | _ => n end.
Definition points_out (k : kinds) (n : nat) : nat := match k with RC => n / 2 + 1 | _ => n end.
(** Point p of line q. *)
Definition at_ (axis q p : nat) : list nat := if axis =? 0 then [p; q] else [q; p].

(** The local parts of a distributed matrix hold the values [a q p]. *)
Definition holds {X} (m : umap) (axis lines points : nat) (x : nat -> list nat -> X) (a : nat -> nat -> X) : Prop :=
  forall pr q p l, q < lines -> p < points -> placed m (sizes axis lines points) (at_ axis q p) pr l -> x pr l = a q p.
(** The transforms look at nothing but the points of their line. *)
Definition local_transform {X Y} (F : nat -> (nat -> X) -> nat -> Y) (k : kinds) : Prop :=
  forall n x y p, (forall q, q < points_in k n -> x q = y q) -> F n x p = F n y p.
