(** * Products of a distributed matrix by a vector, row by row or column by
    column

    Model of the assignment of vmmul<0>(v, m) and vmmul<1>(v, m) to a
    distributed matrix (src/ovxx/expr/vmmul.hpp 93-155,
    src/ovxx/parallel/assign.hpp 95-127).  The destination has a map of the
    class Map, applied to its domain; the matrix operand is a stored block;
    the vector is mapped by a Map or a Replicated_map.  Other classes of map
    for the destination do not compile (map_project_1, map_fwd.hpp 41); for
    vmmul<1> the first two distributions of the map must also be of the same
    class (map_utils.hpp 94). *)
From Coq Require Import List Arith Lia Bool.
From Verif Require Import Base Dist Traversal Map SubMap.
Import ListNotations.
Local Open Scope nat_scope.

(** The map of the vector. *)
Inductive vmap := VRep (pvec : list nat) | VMap (u : umap).

(** num_subblocks(d) of a Map (map.hpp 189). *)
Definition dim_blocks (u : umap) (d : nat) : option nat := x <- nth_error (u_d u) d ;; Some (num_subblocks x).

(** has_same_map<1>(Replicated_map<1>(), v): the default Replicated_map lists
    all processors in order (replicated_map.hpp 87-93); its processors are
    compared one by one (replicated_map.hpp 245-261); maps of different
    classes differ (map_traits.hpp 40-44). *)
Definition everywhere (all : list nat) (v : vmap) : bool :=
  match v with VRep p => list_eqb all p | VMap _ => false end.
(** has_same_map<1>(project, v), map.hpp 1092-1118. *)
Definition maps_as (u : umap) (v : vmap) : bool :=
  match v with VRep _ => false | VMap w => map_eq u w end.

(** has_same_map of a Vmmul node, vmmul.hpp 130-152; [vd] is VecDim. *)
Definition vm_same_map (vd : nat) (all : list nat) (lhs : umap) (lens : list nat) (v : vmap) (m : umap) : option bool :=
  n <- dim_blocks lhs (1 - vd) ;;
  if everywhere all v && (n =? 1) && map_eq lhs m then Some true else
  k <- dim_blocks lhs vd ;;
  if k =? 1 then
    p <- project1 vd lhs lens 0 ;; Some (maps_as p v && map_eq lhs m)
  else Some false.

(** Vmmul::get on the local blocks, vmmul.hpp 56-62, 101-111. *)
Definition local_get {V W X} (mul : V -> W -> X) (vd : nat) (lv : nat -> V) (lm : list nat -> W) (l : list nat) : option X :=
  match l with
  | [i; j] => Some (if vd =? 0 then mul (lv j) (lm [i; j]) else mul (lv i) (lm [i; j]))
  | _ => None
  end.

(** What a processor [pr] stores at each local index of its part of the
    destination; [None]: the exception unimplemented (parallel/assign.hpp
    123-126), thrown on all processors.  [lv], [lm]: the local parts of the
    operands. *)
Definition vm_assign {V W X} (mul : V -> W -> X) (vd : nat) (all : list nat) (lhs : umap) (lens : list nat) (v : vmap) (m : umap)
    (lv : nat -> nat -> V) (lm : nat -> list nat -> W) : option (nat -> list nat -> option X) :=
  b <- vm_same_map vd all lhs lens v m ;;
  if (b : bool) then Some (fun pr l => local_get mul vd (lv pr) (lm pr) l) else None.

(** * Specification *)

(** The local parts hold the vector [x] of [n] elements: on every processor
    of a replicated vector all of it, otherwise each element where its map
    places it. *)
Definition has_vector {V} (v : vmap) (n : nat) (lv : nat -> nat -> V) (x : nat -> V) : Prop :=
  match v with
  | VRep p => forall pr i, In pr p -> i < n -> lv pr i = x i
  | VMap w => forall pr i l, i < n -> placed w [n] [i] pr [l] -> lv pr l = x i
  end.
Definition has_matrix {W} (m : umap) (rows cols : nat) (lm : nat -> list nat -> W) (a : nat -> nat -> W) : Prop :=
  forall pr i j l, i < rows -> j < cols -> placed m [rows; cols] [i; j] pr l -> lm pr l = a i j.
