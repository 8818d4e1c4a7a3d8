(** Model of the multi-dimensional maps (src/vsip/map.hpp) and of the
    replicated map (src/vsip/impl/replicated_map.hpp).
    A map applied to a D-dimensional domain is described by the list of
    its first D distributions paired with the D lengths of the domain;
    impl_apply (map.hpp 299-322) requires the remaining distributions to
    have one subblock.  Domain<D> results are lists of (first, length),
    stride 1.  no_subblock is [None].  Simplification: products of sizes
    do not wrap at 2^64; the applied domain starts at 0 with stride 1 (as
    distributed_block constructs it). *)
From Coq Require Import List Arith Lia Bool Permutation.
From Verif Require Import Base Dist Traversal.
Import ListNotations.

(** Per-dimension loops [for (d=0; d<Dim; ++d) out[d] = f(d, in[d])]. *)
Fixpoint omap2 {A B C} (f : A -> B -> option C) (a : list A) (b : list B) : option (list C) :=
  match a, b with
  | [], [] => Some []
  | x :: a', y :: b' => z <- f x y ;; r <- omap2 f a' b' ;; Some (z :: r)
  | _, _ => None
  end.

(** Row-major composition of a position: the loops
    [if (d != 0) v *= size[d]; v += x[d]] (map.hpp 579-585, 619-625). *)
Fixpoint horner (acc : nat) (size x : list nat) : nat :=
  match size, x with
  | s :: size', y :: x' => horner (acc * s + y) size' x'
  | _, _ => acc
  end.

Definition prod (l : list nat) : nat := fold_right Nat.mul 1 l.

(** map.hpp 32-70: split_tuple.  [split_loop] is the loop from the last
    dimension to the first; the result is the positions and what is left
    of value. *)
Fixpoint split_loop (value : nat) (size : list nat) : option (list nat * nat) :=
  match size with
  | [] => Some ([], value)
  | s :: rest =>
      r <- split_loop value rest ;;
      p <- cmod (snd r) s ;;
      d <- csub (snd r) p ;;
      v <- cdiv d s ;;
      Some (p :: fst r, v)
  end.
(** The final OVXX_PRECONDITION (64-68) checks that the positions
    recompose to the original value. *)
Definition split_tuple (value : nat) (size : list nat) : option (list nat) :=
  r <- split_loop value size ;;
  assert (horner 0 size (fst r) =? value) ;; Some (fst r).

(** An applied map: distributions with lengths, dimension by dimension. *)
Definition dims := list (dist * nat).
Definition subblocks (m : dims) : list nat := map (fun d => num_subblocks (fst d)) m.
Definition ext_of (m : dims) : list nat := map snd m.
(** num_subblocks(): map.hpp 106-108 (product over the dimensions). *)
Definition map_num_subblocks (m : dims) : nat := prod (subblocks m).

(** map.hpp 566-596: impl_subblock_from_global_index, with its checks. *)
Definition dim_subblocks (m : dims) (idx : list nat) : option (list nat) :=
  omap2 (fun d i => assert (i <? snd d) ;; subblock_from_index (fst d) (snd d) i) m idx.
Fixpoint list_eqb (a b : list nat) : bool :=
  match a, b with
  | [], [] => true
  | x :: a', y :: b' => (x =? y) && list_eqb a' b'
  | _, _ => false
  end.
Definition map_subblock_from_global_index (m : dims) (idx : list nat) : option nat :=
  xs <- dim_subblocks m idx ;;
  let sb := horner 0 (subblocks m) xs in
  assert (sb <? map_num_subblocks m) ;;
  ps <- split_tuple sb (subblocks m) ;;
  assert (list_eqb ps xs) ;;
  Some sb.

(** map.hpp 862-887: impl_num_patches, for a valid subblock. *)
Definition patch_counts (m : dims) (sbs : list nat) : option (list nat) :=
  omap2 (fun d sb => subblock_patches (fst d) (snd d) sb) m sbs.
Definition map_num_patches (m : dims) (sb : nat) : option nat :=
  assert (sb <? map_num_subblocks m) ;;
  sbs <- split_tuple sb (subblocks m) ;;
  k <- patch_counts m sbs ;;
  Some (prod k).

(** map.hpp 602-630: impl_patch_from_global_index. *)
Definition map_patch_from_global_index (m : dims) (idx : list nat) : option nat :=
  sb <- map_subblock_from_global_index m idx ;;
  sbs <- split_tuple sb (subblocks m) ;;
  k <- patch_counts m sbs ;;
  ps <- omap2 (fun d i => assert (i <? snd d) ;; patch_from_index (fst d) (snd d) i) m idx ;;
  let p := horner 0 k ps in
  np <- map_num_patches m sb ;;
  assert (p <? np) ;;
  Some p.

(** map.hpp 643-667: impl_global_from_local_index(d, sb, idx), for all d. *)
Definition map_global_from_local_index (m : dims) (sb : nat) (idx : list nat) : option (list nat) :=
  sbs <- split_tuple sb (subblocks m) ;;
  omap2 (fun ds i => global_from_local_index (fst (fst ds)) (snd (fst ds)) (snd ds) i)
        (combine m sbs) idx.

(** map.hpp 540-560: impl_local_from_global_index(d, idx), for all d. *)
Definition map_local_from_global_index (m : dims) (idx : list nat) : option (list nat) :=
  omap2 (fun d i => local_from_global_index (fst d) (snd d) i) m idx.

(** map.hpp 928-961: impl_subblock_extent (and the equivalent
    impl_subblock_domain 896-920) of a valid subblock. *)
Definition map_subblock_extent (m : dims) (sb : nat) : option (list nat) :=
  assert (sb <? map_num_subblocks m) ;;
  sbs <- split_tuple sb (subblocks m) ;;
  omap2 (fun d sb => subblock_size (fst d) (snd d) sb) m sbs.

(** map.hpp 971-1011, 1021-1063: impl_global_domain, impl_local_domain of
    a valid subblock. *)
Definition patch_dom (f : dist -> nat -> nat -> nat -> option (nat * nat))
    (m : dims) (sb p : nat) : option (list (nat * nat)) :=
  assert (sb <? map_num_subblocks m) ;;
  np <- map_num_patches m sb ;;
  assert (p <? np) ;;
  sbs <- split_tuple sb (subblocks m) ;;
  k <- patch_counts m sbs ;;
  ps <- split_tuple p k ;;
  omap2 (fun ds q => f (fst (fst ds)) (snd (fst ds)) (snd ds) q) (combine m sbs) ps.
Definition map_global_domain := patch_dom patch_global_dom.
Definition map_local_domain := patch_dom patch_local_dom.

(** ** Processors *)

(** map.hpp 715-727 / replicated_map.hpp 199-204: impl_rank_from_proc. *)
Fixpoint rank_from_proc (pvec : list nat) (pr : nat) : option nat :=
  match pvec with
  | [] => None
  | x :: r => if x =? pr then Some 0 else option_map S (rank_from_proc r pr)
  end.

(** map.hpp 98-149: the constructors keep the first num_subblocks
    processors of the communicator or of the given vector. *)
Definition map_pvec (m : dims) (procs : list nat) : option (list nat) :=
  assert (map_num_subblocks m <=? length procs) ;;
  Some (firstn (map_num_subblocks m) procs).

(** map.hpp 738-776: subblock(pr). *)
Definition map_subblock (m : dims) (pvec : list nat) (pr : nat) : option nat :=
  match rank_from_proc pvec pr with
  | Some pi => if pi <? map_num_subblocks m then Some pi else None
  | None => None
  end.

(** map.hpp 792-830: the iterator range processor_begin..processor_end
    holds one processor, pvec[sb % num_procs] (num_procs = num_subblocks). *)
Definition map_processors (m : dims) (pvec : list nat) (sb : nat) : option (list nat) :=
  assert (sb <? map_num_subblocks m) ;;
  p <- nth_error pvec (sb mod map_num_subblocks m) ;; Some [p].

(** replicated_map.hpp 117-126, 133-143: subblock(pr), processors of subblock 0. *)
Definition rep_subblock (pvec : list nat) (pr : nat) : option nat :=
  match rank_from_proc pvec pr with Some _ => Some 0 | None => None end.
Definition rep_processors (pvec : list nat) (sb : nat) : option (list nat) :=
  assert (sb =? 0) ;; Some pvec.

(** ** Map equality *)

(** The three distributions of an (unapplied) map with the stored
    processor vector; the communicator is the same for all maps of the
    process (default_communicator, map.hpp 102, 122). *)
Record umap := { u_d : list dist; u_pvec : list nat }.

(** distribution(d): whole / block / cyclic. *)
Definition kind (d : dist) : nat :=
  match d with Whole => 0 | Block _ => 1 | Cyclic _ _ => 2 end.

(** map.hpp 1092-1118: operator== on maps of the same C++ type. *)
Fixpoint dists_eq (a b : list dist) : bool :=
  match a, b with
  | [], [] => true
  | x :: a', y :: b' =>
      (kind x =? kind y) && (num_subblocks x =? num_subblocks y)
      && (cyclic_contiguity x =? cyclic_contiguity y) && dists_eq a' b'
  | _, _ => false
  end.
Definition map_eq (a b : umap) : bool :=
  dists_eq (u_d a) (u_d b) && list_eqb (u_pvec a) (u_pvec b).

(** map.hpp 1120-1161: map_equiv<D>; compares the first D dimensions
    without the kind (the two maps have the same C++ type) and the first
    num_subblocks processors. *)
Fixpoint equiv_dims (D : nat) (a b : list dist) : bool :=
  match D, a, b with
  | 0, _, _ => true
  | S D', x :: a', y :: b' =>
      (num_subblocks x =? num_subblocks y) && (cyclic_contiguity x =? cyclic_contiguity y)
      && equiv_dims D' a' b'
  | _, _, _ => false
  end.
Definition u_num (m : umap) : nat := prod (map num_subblocks (u_d m)).
Definition map_equiv (D : nat) (a b : umap) : option bool :=
  if negb (equiv_dims D (u_d a) (u_d b)) then Some false else
  assert (u_num a <=? length (u_pvec a)) ;;
  assert (u_num b <=? length (u_pvec b)) ;;
  assert (u_num a <=? length (u_pvec b)) ;;   (* reads map2.pvec[i], i < map1.num_subblocks() *)
  Some (list_eqb (firstn (u_num a) (u_pvec a)) (firstn (u_num a) (u_pvec b))).

(** ** Iteration over the local elements (ovxx/parallel/util.hpp) *)

(** util.hpp 75-103: foreach_point.  The calls of the user's function in
    order: pairs (local index, global index).  domain_nth of a unit-stride
    domain adds its first index (domain_utils.hpp 348-354); the index
    loop is the row-major traversal of C05. *)
Definition row_major (D : nat) : list nat := seq 0 D.
Definition domain_nth (dom : list (nat * nat)) (i : list nat) : list nat :=
  map (fun fi => fst (fst fi) + snd fi) (combine dom i).
Definition patch_points (fuel : nat) (ldom gdom : list (nat * nat))
    : option (list (list nat * list nat)) :=
  let ext := map snd ldom in
  is <- traverse fuel (row_major (length ext)) ext (repeat 0 (length ext)) ;;
  Some (map (fun i => (domain_nth ldom i, domain_nth gdom i)) is).
Fixpoint patches_points (fuel : nat) (m : dims) (sb p k : nat)
    : option (list (list nat * list nat)) :=
  match k with
  | 0 => Some []
  | S k' =>
      ldom <- map_local_domain m sb p ;;
      gdom <- map_global_domain m sb p ;;
      a <- patch_points fuel ldom gdom ;;
      b <- patches_points fuel m sb (p + 1) k' ;;
      Some (a ++ b)
  end.
Definition foreach_point (fuel : nat) (m : dims) (sb : option nat)
    : option (list (list nat * list nat)) :=
  match sb with
  | None => Some []
  | Some sb => k <- map_num_patches m sb ;; patches_points fuel m sb 0 k
  end.

(** util.hpp 32-59: foreach_patch calls the function with every local
    patch and its global domain. *)
Fixpoint patches_from (m : dims) (sb p k : nat)
    : option (list (list (nat * nat) * list (nat * nat))) :=
  match k with
  | 0 => Some []
  | S k' =>
      ldom <- map_local_domain m sb p ;;
      gdom <- map_global_domain m sb p ;;
      r <- patches_from m sb (p + 1) k' ;;
      Some ((ldom, gdom) :: r)
  end.
Definition foreach_patch (m : dims) (sb : option nat)
    : option (list (list (nat * nat) * list (nat * nat))) :=
  match sb with
  | None => Some []
  | Some sb => k <- map_num_patches m sb ;; patches_from m sb 0 k
  end.

(** * Specification *)

Definition map_ok (m : dims) : Prop := Forall (fun d => dist_ok (fst d) = true) m.

(** Index tuple [i] lies inside the box [dom]. *)
Definition in_box (dom : list (nat * nat)) (i : list nat) : Prop :=
  Forall2 (fun x fl => fst fl <= x < fst fl + snd fl) i dom.

(** Global index [g] belongs to patch [p] of subblock [sb]. *)
Definition in_map_patch (m : dims) (sb p : nat) (g : list nat) : Prop :=
  exists dom, map_global_domain m sb p = Some dom /\ in_box dom g.

(** Local index [l] belongs to the local patch [p] of subblock [sb]. *)
Definition in_map_local_patch (m : dims) (sb p : nat) (l : list nat) : Prop :=
  exists dom, map_local_domain m sb p = Some dom /\ in_box dom l.

(** An applied map partitions the index space of its domain. *)
Record map_partitioned (m : dims) : Prop := {
  (** every index has exactly one home, found by the look-up functions,
      and global -> local -> global is the identity *)
  mp_home : forall g, in_range (ext_of m) g -> exists sb p l ext,
     map_subblock_from_global_index m g = Some sb /\ sb < map_num_subblocks m /\
     map_patch_from_global_index m g = Some p /\ in_map_patch m sb p g /\
     (forall sb' p', in_map_patch m sb' p' g -> sb' = sb /\ p' = p) /\
     map_local_from_global_index m g = Some l /\
     map_subblock_extent m sb = Some ext /\ in_range ext l /\
     map_global_from_local_index m sb l = Some g;
  (** patches contain only existing indices *)
  mp_inside : forall sb p g, in_map_patch m sb p g -> in_range (ext_of m) g;
  (** local -> global -> local is the identity *)
  mp_back : forall sb ext l, map_subblock_extent m sb = Some ext -> in_range ext l ->
     exists g, map_global_from_local_index m sb l = Some g /\ in_range (ext_of m) g /\
       map_subblock_from_global_index m g = Some sb /\ map_local_from_global_index m g = Some l;
  (** global and local patch of the same number correspond element by element *)
  mp_patch_match : forall sb p gdom, map_global_domain m sb p = Some gdom ->
     exists ldom, map_local_domain m sb p = Some ldom /\ map snd ldom = map snd gdom /\
       forall x, in_range (map snd gdom) x ->
         map_global_from_local_index m sb (domain_nth ldom x) = Some (domain_nth gdom x);
  (** the local patches tile the local index space *)
  mp_local_tiles : forall sb ext, map_subblock_extent m sb = Some ext -> forall l,
     (in_range ext l <-> exists p, in_map_local_patch m sb p l) /\
     (forall p p', in_map_local_patch m sb p l -> in_map_local_patch m sb p' l -> p = p');
  (** extents and patches exist exactly for the valid numbers *)
  mp_defined : forall sb, sb < map_num_subblocks m <-> exists ext, map_subblock_extent m sb = Some ext;
  mp_patches : forall sb, sb < map_num_subblocks m -> exists k, map_num_patches m sb = Some k /\
     forall p, p < k <-> exists dom, map_global_domain m sb p = Some dom;
  (** subblock numbers and per-dimension coordinates correspond one to one *)
  mp_coords : (forall sb, sb < map_num_subblocks m -> exists c,
                 Forall2 lt c (subblocks m) /\ split_tuple sb (subblocks m) = Some c /\
                 forall c', Forall2 lt c' (subblocks m) ->
                   (split_tuple sb (subblocks m) = Some c' <-> c' = c)) /\
              (forall c, Forall2 lt c (subblocks m) -> exists sb,
                 sb < map_num_subblocks m /\ split_tuple sb (subblocks m) = Some c /\
                 forall sb', sb' < map_num_subblocks m ->
                   split_tuple sb' (subblocks m) = Some c -> sb' = sb)
}.

(** map.hpp 299-322: impl_apply(Domain<D>): the D lengths are attached to
    the first D distributions; the other distributions must not divide. *)
Definition apply_map (u : umap) (lens : list nat) : option dims :=
  assert (length lens <=? length (u_d u)) ;;
  assert (forallb (fun d => num_subblocks d =? 1) (skipn (length lens) (u_d u))) ;;
  Some (combine (u_d u) lens).

(** A map built by one of the constructors (map_pvec for all dimensions). *)
Definition built (u : umap) : Prop :=
  Forall (fun d => dist_ok d = true) (u_d u) /\ length (u_pvec u) = u_num u.

(** Element [g] of a domain of lengths [lens] lives on processor [pr] at
    local index [l]. *)
Definition placed (u : umap) (lens g : list nat) (pr : nat) (l : list nat) : Prop :=
  exists m sb ps, apply_map u lens = Some m /\ map_subblock_from_global_index m g = Some sb /\
    map_processors m (u_pvec u) sb = Some ps /\ In pr ps /\ map_local_from_global_index m g = Some l.

(** The two maps have the same C++ type. *)
Definition same_type (a b : umap) : Prop := Forall2 (fun x y => kind x = kind y) (u_d a) (u_d b).

(** ovxx/parallel/support.hpp 155-163: block_patch_from_global_index(block,
    idx): after the bounds checks it returns the map's
    impl_subblock_from_global_index. *)
Definition block_patch_from_global_index (m : dims) (idx : list nat) : option nat :=
  assert (forallb (fun p => fst p <? snd p) (combine idx (ext_of m))) ;;
  map_subblock_from_global_index m idx.
