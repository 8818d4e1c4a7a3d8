(** Model of the transpose of a distributed matrix:
    src/ovxx/parallel/transpose_map_decl.hpp (the map of the transposed
    view), src/ovxx/expr/transposed.hpp (the block and its local block),
    and the queries of src/ovxx/parallel/support.hpp and util.hpp that a
    program makes of it.  The maps themselves are those of Map.v.
    Also here: which map the other rearranging views report
    (src/ovxx/expr/permuted.hpp, src/ovxx/expr/diag.hpp), and how long the
    map that a transposed view refers to lives.
    [None] is an assertion failure, or an exception leaving a function
    declared VSIP_NOTHROW (the program is terminated).  A subblock number
    is an [option nat]: [None] there is no_subblock.
    Not modelled: impl_local_from_global_domain, impl_parent_local_domain,
    and num_subblocks(dim), which calls a member function that does not
    exist (transpose_map_decl.hpp 46) and so cannot be used at all. *)
From Coq Require Import List Arith Lia Bool.
From Verif Require Import Base Dist Traversal Map.
Import ListNotations.

(** The interface of a map, as far as support.hpp 33-230 and util.hpp
    75-103 use it. *)
Record gmap := GMap {
  g_subblocks : nat;                                       (* num_subblocks() *)
  g_subblock : nat -> option nat;                          (* subblock(pr) *)
  g_procs : nat -> option (list nat);                      (* processor_begin/end(sb) *)
  g_patches : option nat -> option nat;                    (* impl_num_patches(sb) *)
  g_extent : option nat -> option (list nat);              (* impl_subblock_extent(sb) *)
  g_gdom : option nat -> nat -> option (list (nat * nat)); (* impl_global_domain(sb, p) *)
  g_ldom : option nat -> nat -> option (list (nat * nat)); (* impl_local_domain(sb, p) *)
  g_local_index : nat -> nat -> option nat;                (* impl_local_from_global_index(d, i) *)
  g_global_index : nat -> nat -> nat -> option nat;        (* impl_global_from_local_index(d, sb, i) *)
  g_home : list nat -> option nat                          (* impl_subblock_from_global_index(idx) *)
}.

(** map.hpp 540-560, 643-667, 867-887, 928-961, 971-1063: class Map.  For
    no_subblock the number of patches is 0 and every domain is empty. *)
Definition of_map (m : dims) (pvec : list nat) : gmap := {|
  g_subblocks := map_num_subblocks m;
  g_subblock := map_subblock m pvec;
  g_procs := map_processors m pvec;
  g_patches := fun sb => match sb with None => Some 0 | Some s => map_num_patches m s end;
  g_extent := fun sb => match sb with None => Some (map (fun _ => 0) m)
                                   | Some s => map_subblock_extent m s end;
  g_gdom := fun sb p => match sb with None => Some (map (fun _ => (0, 0)) m)
                                   | Some s => map_global_domain m s p end;
  g_ldom := fun sb p => match sb with None => Some (map (fun _ => (0, 0)) m)
                                   | Some s => map_local_domain m s p end;
  g_local_index := fun d i => x <- nth_error m d ;; local_from_global_index (fst x) (snd x) i;
  g_global_index := fun d sb i =>
    x <- nth_error m d ;; sbs <- split_tuple sb (subblocks m) ;; s <- nth_error sbs d ;;
    global_from_local_index (fst x) (snd x) s i;
  g_home := map_subblock_from_global_index m |}.

(** transpose_map_decl.hpp 25-28: parent_dim. *)
Definition parent_dim (d : nat) : nat := match d with 0 => 1 | 1 => 0 | d => d end.

(** Domain<D>(p_dom[1], p_dom[0]), Length<D>(p_ext[1], p_ext[0]). *)
Definition exchanged {A} (l : list A) : option (list A) :=
  a <- nth_error l 0 ;; b <- nth_error l 1 ;; Some [b; a].

(** sb < this->num_subblocks(): no_subblock is the largest index_type. *)
Definition valid_sb (g : gmap) (sb : option nat) : bool :=
  match sb with None => false | Some s => s <? g_subblocks g end.

(** transpose_map_decl.hpp 96-113: the checks of impl_global_domain and
    impl_local_domain. *)
Definition patch_checks (g : gmap) (sb : option nat) (p : nat) : option unit :=
  assert (valid_sb g sb) ;;
  k <- g_patches g sb ;;
  assert (p <? k) ;; Some tt.

(** transpose_map_decl.hpp 21-185: class transpose_map.  The two look-up
    functions of 123-130 and 136-143 throw [unimplemented]; they are
    declared VSIP_NOTHROW. *)
Definition transpose_map (g : gmap) : gmap := {|
  g_subblocks := g_subblocks g;
  g_subblock := g_subblock g;
  g_procs := g_procs g;
  g_patches := g_patches g;
  g_extent := fun sb => assert (valid_sb g sb) ;; e <- g_extent g sb ;; exchanged e;
  g_gdom := fun sb p => _ <- patch_checks g sb p ;; d <- g_gdom g sb p ;; exchanged d;
  g_ldom := fun sb p => _ <- patch_checks g sb p ;; d <- g_ldom g sb p ;; exchanged d;
  g_local_index := fun d i => g_local_index g (parent_dim d) i;
  g_global_index := fun _ _ _ => None;
  g_home := fun _ => None |}.

(** support.hpp 144-153: block_subblock_from_global_index(block, idx),
    for a block of extent [ext]; 155-163, block_patch_from_global_index,
    has the same body. *)
Definition subblock_of_index (g : gmap) (ext idx : list nat) : option nat :=
  assert (forallb (fun p => fst p <? snd p) (combine idx ext)) ;;
  g_home g idx.

(** support.hpp 194-205: block_global_from_local_index(block, sb, l_idx). *)
Fixpoint global_of_local (g : gmap) (sb : nat) (d : nat) (l : list nat) : option (list nat) :=
  match l with
  | [] => Some []
  | i :: r => x <- g_global_index g d sb i ;; y <- global_of_local g sb (S d) r ;; Some (x :: y)
  end.

(** ** foreach_point(view, f): util.hpp 75-103 *)
Section Points.
Variable V : Type.

(** The elements a processor holds, by local index. *)
Definition lblock := list nat -> V.
Definition lput (b : lblock) (i : list nat) (v : V) : lblock :=
  fun x => if list_eqb x i then v else b x.

(** expr/transposed.hpp 62-66 and 104-117: the local block of a transposed
    block is the transposed local block of its argument; its elements are
    read and written with exchanged indices. *)
Definition t_index (i : list nat) : option (list nat) := exchanged i.
Definition t_get (b : lblock) (i : list nat) : option V := j <- t_index i ;; Some (b j).
Definition t_put (b : lblock) (i : list nat) (v : V) : option lblock :=
  j <- t_index i ;; Some (lput b j v).

(** util.hpp 96: one call of the function. *)
Definition visit (f : V -> list nat -> list nat -> V) (b : lblock) (lg : list nat * list nat)
    : option lblock :=
  v <- t_get b (fst lg) ;; t_put b (fst lg) (f v (fst lg) (snd lg)).
Fixpoint visits (f : V -> list nat -> list nat -> V) (b : lblock) (pts : list (list nat * list nat))
    : option lblock :=
  match pts with
  | [] => Some b
  | p :: r => b' <- visit f b p ;; visits f b' r
  end.

(** util.hpp 86-98: the patches in turn. *)
Fixpoint point_patches (fuel : nat) (f : V -> list nat -> list nat -> V) (g : gmap) (sb : option nat)
    (b : lblock) (p k : nat) : option lblock :=
  match k with
  | 0 => Some b
  | S k' =>
      ldom <- g_ldom g sb p ;;
      gdom <- g_gdom g sb p ;;
      pts <- patch_points fuel ldom gdom ;;
      b' <- visits f b pts ;;
      point_patches fuel f g sb b' (p + 1) k'
  end.

(** foreach_point(a.transpose(), f) on processor [pr], whose part of [a]
    is [b]; [g] is the map of the transposed view. *)
Definition foreach_point_t (fuel : nat) (f : V -> list nat -> list nat -> V) (g : gmap) (pr : nat)
    (b : lblock) : option lblock :=
  match g_subblock g pr with
  | None => Some b
  | Some sb => k <- g_patches g (Some sb) ;; point_patches fuel f g (Some sb) b 0 k
  end.
End Points.

(** ** Other rearranging views *)

(** expr/permuted.hpp 26-46: get(i##n0, i##n1, i##n2) reads (i0, i1, i2),
    so argument number k of the view is index number n_k of the argument
    block; size(3, d) is the argument's size n_d. *)
Definition permuted_arg (perm idx : list nat) : list nat :=
  map (fun d => match find (fun k => nth k perm 0 =? d) (seq 0 3) with
                | Some k => nth k idx 0 | None => 0 end) (seq 0 3).
Definition permuted_size (perm ext : list nat) : list nat := map (fun k => nth (nth k perm 0) ext 0) (seq 0 3).
(** permuted.hpp 89: map() is the argument's map. *)
Definition permuted_map (g : gmap) : gmap := g.

(** expr/diag.hpp 68: map() is the argument's map, that of a matrix;
    map.hpp 902-906: impl_subblock_domain<Dim> requires dim_ == Dim. *)
Definition map_subblock_domain (D : nat) (m : dims) (sb : nat) : option (list nat) :=
  assert (sb <? map_num_subblocks m) ;;
  assert (length m =? D) ;;
  map_subblock_extent m sb.

(** ** Lifetimes *)

(** A block object is kept alive by the views holding it.  [live] is the
    number of owners of each object. *)
Definition heap := nat -> nat.
Definition set_count (h : heap) (o n : nat) : heap := fun x => if x =? o then n else h x.

(** A view: the block object it uses, whether that object is part of the
    view itself (block_traits.hpp 172-178: by_value_traits; the traits of
    Subset and Transposed) or shared and counted (164-170), further shared
    objects that the block keeps, and the object whose map the block's map
    refers to, if it refers to one (transpose_map_decl.hpp 38, 184). *)
Record view := View { v_obj : nat; v_value : bool; v_keeps : list nat; v_mapref : option nat }.

(** A distributed matrix with its own block [o]. *)
Definition new_matrix (h : heap) (o : nat) : view * heap :=
  (View o false [] None, set_count h o 1).

(** How another view's block is held by a block stored inside it
    (block_traits.hpp 138-152): counted blocks are shared, by-value blocks
    copied to object [c] with everything they keep. *)
Definition hold (h : heap) (v : view) (c : nat) : list nat * heap :=
  if v_value v
  then (c :: v_keeps v, fold_left (fun h o => set_count h o (h o + 1)) (v_keeps v) (set_count h c 1))
  else ([v_obj v], set_count h (v_obj v) (h (v_obj v) + 1)).

(** a(dom): a Subset block, object [o], with a map of its own
    (expr/subset.hpp 25-33, 80-110). *)
Definition sub_matrix (h : heap) (v : view) (o c : nat) : view * heap :=
  let (k, h') := hold h v c in (View o true k None, set_count h' o 1).

(** v.transpose(): a Transposed block, object [o] (expr/transposed.hpp
    36-39): block_ holds the argument's block, map_ is constructed from
    block.map(), a member of the argument. *)
Definition transpose_view (h : heap) (v : view) (o c : nat) : view * heap :=
  let (k, h') := hold h v c in (View o true k (Some (v_obj v)), set_count h' o 1).

(** The view goes out of scope. *)
Definition drop_view (h : heap) (v : view) : heap :=
  fold_left (fun h o => set_count h o (h o - 1)) (v_obj v :: v_keeps v) h.

(** view.block().map() is used: [None] if it refers to the map of an
    object that no longer exists. *)
Definition use_map (h : heap) (v : view) : option unit :=
  match v_mapref v with
  | None => Some tt
  | Some o => assert (0 <? h o) ;; Some tt
  end.

(** * Specification *)

(** Patch [p] of subblock [sb] holds the element with global index [x]. *)
Definition holds (g : gmap) (sb p : nat) (x : list nat) : Prop :=
  exists dom, g_gdom g (Some sb) p = Some dom /\ in_box dom x.

(** Processor [pr] has subblock [sb]. *)
Definition owns (g : gmap) (pr sb : nat) : Prop := g_subblock g pr = Some sb.
