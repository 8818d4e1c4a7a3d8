(** Model of the maps given to sub-views and slices of distributed views
    (src/ovxx/parallel/subset_map_decl.hpp, src/ovxx/parallel/map_utils.hpp),
    and of the local part of such views (src/ovxx/expr/subset.hpp,
    src/ovxx/expr/sliced.hpp).  Sizes do not reach 2^64 (see Map.v);
    the sub-domain arithmetic is that of Domain.v, with wrapping. *)
From Coq Require Import ZArith List Arith Lia Bool.
From Verif Require Import Base Dist Traversal Map Domain.
Import ListNotations.
Local Open Scope nat_scope.

(** ** Sub-views: subset_map *)

(** A patch domain of a Map, Domain<1>(first, 1, length), as a Domain. *)
Definition zdom (fl : nat * nat) : dom := mkdom (Z.of_nat (fst fl)) 1 (Z.of_nat (snd fl)).

(** What the subset_map constructor asks its parent map about one
    subblock: the global and local domains of its patches, the processor
    impl_proc_from_rank(sb) and impl_subblock_extent(sb). *)
Record sbinfo := mksb {
  si_patches : list (list dom * list dom);
  si_proc : nat;
  si_ext : list Z
}.

(** map.hpp 281-282: impl_proc_from_rank reads pvec[sb]; the patches are
    those of impl_global_domain and impl_local_domain (Map.v). *)
Definition map_sbinfo (m : dims) (pvec : list nat) (sb : nat) : option sbinfo :=
  k <- map_num_patches m sb ;;
  ps <- patches_from m sb 0 k ;;
  pr <- nth_error pvec sb ;;
  ext <- map_subblock_extent m sb ;;
  Some (mksb (map (fun lg => (map zdom (snd lg), map zdom (fst lg))) ps) pr (map Z.of_nat ext)).

(** The subblocks of a Map in order. *)
Fixpoint map_sbinfos (m : dims) (pvec : list nat) (sb n : nat) : option (list sbinfo) :=
  match n with
  | 0 => Some []
  | S n' =>
      x <- map_sbinfo m pvec sb ;;
      r <- map_sbinfos m pvec (sb + 1) n' ;;
      Some (x :: r)
  end.

(** subset_map_decl.hpp 188-200: the members of a subset_map, one entry
    per subblock: global and local domain of its only patch, sb_ext_,
    pvec_, parent_sb_ (sb_patch_pld_ is never read). *)
Record sub_entry := mksub {
  se_gd : list dom;
  se_ld : list dom;
  se_ext : list Z;
  se_proc : nat;
  se_parent : nat
}.

(** subset_map_decl.hpp 217-242: the loop over the patches of one parent
    subblock.  Result: g_vec and l_vec.  The third vector is computed
    (its Domain constructor asserts) and dropped. *)
Fixpoint sub_patches (dm : list dom) (ps : list (list dom * list dom)) : option (list (list dom * list dom)) :=
  match ps with
  | [] => Some []
  | (pg, pl) :: ps' =>
      it <- intersectD pg dm ;;
      match it with
      | None => sub_patches dm ps'
      | Some intr =>
          mg <- subset_from_intrD dm intr ;;
          let ml := map normalize intr in
          pld <- apply_intrD pl pg intr ;;
          r <- sub_patches dm ps' ;;
          Some ((mg, ml) :: r)
      end
  end.

(** subset_map_decl.hpp 215-263: the loop over the parent's subblocks;
    more than one patch throws. *)
Fixpoint sub_entries (dm : list dom) (sb : nat) (pm : list sbinfo) : option (list sub_entry) :=
  match pm with
  | [] => Some []
  | x :: pm' =>
      gl <- sub_patches dm (si_patches x) ;;
      match gl with
      | [] => sub_entries dm (sb + 1) pm'
      | [(g, l)] =>
          r <- sub_entries dm (sb + 1) pm' ;;
          Some (mksub g l (si_ext x) (si_proc x) sb :: r)
      | _ => None
      end
  end.

(** subset_map_decl.hpp 202-214: the constructor on a Map; cyclic
    distributions throw. *)
Definition subset_map (m : dims) (pvec : list nat) (dm : list dom) : option (list sub_entry) :=
  assert (forallb (fun d => negb (kind (fst d) =? 2)) m) ;;
  pm <- map_sbinfos m pvec 0 (map_num_subblocks m) ;;
  sub_entries dm 0 pm.

(** subset_map_decl.hpp 38-46, 79-118: what a subset_map answers to the
    same questions; distribution(d) is [other], so a sub-view of a
    sub-view is accepted (311-320). *)
Definition sub_sbinfo (e : sub_entry) : sbinfo :=
  mksb [(se_gd e, se_ld e)] (se_proc e) (se_ext e).
Definition subset_map2 (sm : list sub_entry) (dm : list dom) : option (list sub_entry) :=
  sub_entries dm 0 (map sub_sbinfo sm).

(** subset_map_decl.hpp 51-59 (subblock(pr)), 173-178. *)
Definition sub_subblock (sm : list sub_entry) (pr : nat) : option nat :=
  match rank_from_proc (map se_proc sm) pr with
  | Some pi => if pi <? length sm then Some pi else None
  | None => None
  end.

(** subset_map_decl.hpp 92-98: impl_subblock_domain(sb) (user level:
    subblock_domain(view, sb), vsip/impl/parallel.hpp 52-57). *)
Definition sub_subblock_domain (sm : list sub_entry) (sb : nat) : option (list dom) :=
  e <- nth_error sm sb ;; Some (map (fun n => mkdom 0 1 n) (se_ext e)).

(** map.hpp 671-701: impl_local_from_global_domain. *)
Definition local_from_global_domain (m : dims) (sb : nat) (gdom : list dom) : option (list dom) :=
  assert (sb <? map_num_subblocks m) ;;
  k <- map_num_patches m sb ;;
  assert (k =? 1) ;;
  pg <- map_global_domain m sb 0 ;;
  pl <- map_local_domain m sb 0 ;;
  it <- intersectD (map zdom pg) gdom ;;
  match it with
  | Some intr => apply_intrD (map zdom pl) (map zdom pg) intr
  | None => Some (map (fun _ => mkdom 0 1 0) gdom)
  end.

(** expr/subset.hpp 56-73, 259-281: the domain of the local view on
    processor [pr], relative to the parent's local block; empty where the
    sub-view has no subblock. *)
Definition subset_local_domain (m : dims) (sm : list sub_entry) (dm : list dom) (pr : nat) : option (list dom) :=
  match rank_from_proc (map se_proc sm) pr with
  | Some sb => e <- nth_error sm sb ;; local_from_global_domain m (se_parent e) dm
  | None => Some (map (fun _ => mkdom 0 1 0) dm)
  end.

(** ** Slices: map_project_1, map_project_2 *)

(** map.hpp 494-510: impl_dim_subblock_from_index (the domain has been
    applied to the map, so dom_[d] has the length [nth d lens]). *)
Definition dim_subblock_from_index (u : umap) (lens : list nat) (d idx : nat) : option nat :=
  di <- nth_error (u_d u) d ;; n <- nth_error lens d ;; subblock_from_index di n idx.

(** map.hpp 118-142: the constructor from a processor vector; the
    omitted distributions are Block_dist() with one subblock (map_fwd.hpp 24-27, dist.hpp 90). *)
Definition make_map (procs : list nat) (ds : list dist) : option umap :=
  let n := prod (map num_subblocks ds) in
  assert (n <=? length procs) ;; Some {| u_d := ds; u_pvec := firstn n procs |}.

(** The loops [for (pi=0; pi<n; ++pi) pvec(pi) = map.impl_proc_from_rank(f(pi))]. *)
Fixpoint read_procs (u : umap) (f : nat -> nat) (pi n : nat) : option (list nat) :=
  match n with
  | 0 => Some []
  | S n' => p <- nth_error (u_pvec u) (f pi) ;; r <- read_procs u f (pi + 1) n' ;; Some (p :: r)
  end.

(** map_utils.hpp 25-36, 61-75, 105-118: map_project_1<D, Map>: the
    parent subblock of a child subblock.  A Map always has three
    distributions. *)
Definition parent_subblock1 (D : nat) (u : umap) (lens : list nat) (idx sb : nat) : option nat :=
  match u_d u with
  | [d0; d1; d2] =>
      let n1 := num_subblocks d1 in
      let n2 := num_subblocks d2 in
      f <- dim_subblock_from_index u lens D idx ;;
      match D with
      | 0 => Some (f * n1 * n2 + sb)
      | 1 => s0 <- cdiv sb n2 ;; s2 <- cmod sb n2 ;; Some (s0 * n1 * n2 + f * n2 + s2)
      | 2 => s0 <- cdiv sb n1 ;; s1 <- cmod sb n1 ;; Some (s0 * n1 * n2 + s1 * n2 + f)
      | _ => None
      end
  | _ => None
  end.

(** map_utils.hpp 38-52, 77-96, 120-140: project.  copy_dist copies the
    distribution (dist.hpp 362-393; the template argument must name its
    class, or the code does not compile). *)
Definition project1 (D : nat) (u : umap) (lens : list nat) (idx : nat) : option umap :=
  match u_d u with
  | [d0; d1; d2] =>
      let n0 := num_subblocks d0 in
      let n1 := num_subblocks d1 in
      let n2 := num_subblocks d2 in
      f <- dim_subblock_from_index u lens D idx ;;
      match D with
      | 0 => pv <- read_procs u (fun pi => f * n1 * n2 + pi) 0 (n1 * n2) ;;
             make_map pv [d1; d2; Block 1]
      | 1 => assert (negb (n2 =? 0)) ;;
             pv <- read_procs u (fun pi => pi / n2 * n1 * n2 + f * n2 + pi mod n2) 0 (n0 * n2) ;;
             make_map pv [d0; d2; Block 1]
      | 2 => assert (negb (n1 =? 0)) ;;
             pv <- read_procs u (fun pi => pi / n1 * n1 * n2 + pi mod n1 * n2 + f) 0 (n0 * n1) ;;
             make_map pv [d0; d1; Block 1]
      | _ => None
      end
  | _ => None
  end.

(** map_utils.hpp 143-183, 185-225, 227-267: map_project_2<D1, D2, Map>
    with D1 < D2. *)
Definition project2 (D1 D2 : nat) (u : umap) (lens : list nat) (idx1 idx2 : nat) : option umap :=
  match u_d u with
  | [d0; d1; d2] =>
      let n0 := num_subblocks d0 in
      let n1 := num_subblocks d1 in
      let n2 := num_subblocks d2 in
      f <- dim_subblock_from_index u lens D1 idx1 ;;
      g <- dim_subblock_from_index u lens D2 idx2 ;;
      match D1, D2 with
      | 0, 1 => pv <- read_procs u (fun pi => f * n1 * n2 + g * n2 + pi) 0 n2 ;;
                make_map pv [d2; Block 1; Block 1]
      | 0, 2 => pv <- read_procs u (fun pi => f * n1 * n2 + pi * n2 + g) 0 n1 ;;
                make_map pv [d1; Block 1; Block 1]
      | 1, 2 => pv <- read_procs u (fun pi => pi * n1 * n2 + f * n2 + g) 0 n0 ;;
                make_map pv [d0; Block 1; Block 1]
      | _, _ => None
      end
  | _ => None
  end.
Definition parent_subblock2 (D1 D2 : nat) (u : umap) (lens : list nat) (idx1 idx2 sb : nat) : option nat :=
  match u_d u with
  | [d0; d1; d2] =>
      let n1 := num_subblocks d1 in
      let n2 := num_subblocks d2 in
      f <- dim_subblock_from_index u lens D1 idx1 ;;
      g <- dim_subblock_from_index u lens D2 idx2 ;;
      match D1, D2 with
      | 0, 1 => Some (f * n1 * n2 + g * n2 + sb)
      | 0, 2 => Some (f * n1 * n2 + sb * n2 + g)
      | 1, 2 => Some (sb * n1 * n2 + f * n2 + g)
      | _, _ => None
      end
  | _ => None
  end.

(** expr/sliced.hpp 514-531: the index at which the parent's local block
    is sliced on processor [pr]; [None] inside is no_index. *)
Definition slice_local_index (D : nat) (u u' : umap) (lens : list nat) (idx pr : nat) : option (option nat) :=
  match rank_from_proc (u_pvec u') pr with
  | Some _ =>
      d <- nth_error (u_d u) D ;; n <- nth_error lens D ;;
      l <- local_from_global_index d n idx ;; Some (Some l)
  | None => Some None
  end.

(** * Specification *)

(** The index tuple with [x] put at position [D]. *)
Definition insert_at {A} (D : nat) (x : A) (l : list A) : list A := firstn D l ++ x :: skipn D l.
Definition remove_at {A} (D : nat) (l : list A) : list A := firstn D l ++ skipn (S D) l.

(** A sub-domain of a view of lengths [lens]: positive strides, at least
    one index, every index inside the view. *)
Definition sub_of (lens : list nat) (dm : list dom) : Prop :=
  Forall2 (fun n d => (Z.of_nat n < H64)%Z /\ dom_ok d /\ (0 < dstride d)%Z /\ (0 < dlen d)%Z /\
                      (forall x, indom d x -> (x < Z.of_nat n)%Z)) lens dm.

(** Number tuples as naturals. *)
Definition nats (x : list Z) : list nat := map Z.to_nat x.

(** A Map without cyclic distributions. *)
Definition no_cyclic (u : umap) : Prop := Forall (fun d => kind d <> 2) (u_d u).
