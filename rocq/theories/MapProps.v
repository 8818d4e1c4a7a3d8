(** Property theorems C12, C13, C14, C18. *)
From Coq Require Import List Arith Lia Bool Permutation Sorted.
From Verif Require Import Base Dist Traversal Map MapProofs.
Import ListNotations.

(** Any mix of distributions, any number of dimensions, any lengths. *)
Theorem C12_map_partitions : forall m, map_ok m -> map_partitioned m.
Proof. exact map_partitioned_lemma. Qed.
Print Assumptions C12_map_partitions.

Example C12_example :
  let m := [(Cyclic 2 3, 10); (Block 3, 7)] in
  map_ok m /\ map_num_subblocks m = 6 /\
  map_subblock_from_global_index m [7; 4] = Some 1 /\
  map_patch_from_global_index m [7; 4] = Some 1 /\
  map_local_from_global_index m [7; 4] = Some [4; 1] /\
  map_global_from_local_index m 1 [4; 1] = Some [7; 4] /\
  map_subblock_extent m 1 = Some [6; 2] /\
  map_global_domain m 1 1 = Some [(6, 3); (3, 2)] /\
  map_local_domain m 1 1 = Some [(3, 3); (0, 2)].
Proof. repeat split; repeat constructor. Qed.

(** Finding: the block-level query for the patch of an index returns its
    subblock number instead (support.hpp 162). *)
Theorem C12_block_patch_query_refuted :
  exists m g p, map_ok m /\ in_range (ext_of m) g /\ map_patch_from_global_index m g = Some p /\
    block_patch_from_global_index m g <> Some p.
Proof.
  exists [(Cyclic 2 3, 10)], [7], 1. repeat split; try discriminate; repeat constructor.
Qed.
Print Assumptions C12_block_patch_query_refuted.

(** [procs] is the communicator's or the user's processor list; without
    repetitions subblock(pr) and the processor iteration agree. *)
Theorem C13_owners_agree :
  forall m procs pvec, NoDup procs -> map_pvec m procs = Some pvec ->
  (forall pr sb, map_subblock m pvec pr = Some sb <->
     exists l, map_processors m pvec sb = Some l /\ In pr l) /\
  (forall pr, ~ In pr pvec -> map_subblock m pvec pr = None) /\
  (forall sb, sb < map_num_subblocks m -> exists pr, map_subblock m pvec pr = Some sb /\
     forall pr', map_subblock m pvec pr' = Some sb -> pr' = pr).
Proof. exact map_owner_lemma. Qed.
Print Assumptions C13_owners_agree.

Example C13_example :
  NoDup [5;2;9;7] /\ map_pvec [(Block 3, 10)] [5;2;9;7] = Some [5;2;9] /\
  map_subblock [(Block 3, 10)] [5;2;9] 9 = Some 2 /\ map_subblock [(Block 3, 10)] [5;2;9] 7 = None /\
  map_processors [(Block 3, 10)] [5;2;9] 1 = Some [2].
Proof. repeat split. repeat constructor; cbn; lia. Qed.

(** A replicated map: every listed processor holds subblock 0. *)
Theorem C13_replicated_owners_agree :
  forall pvec, (forall pr sb, rep_subblock pvec pr = Some sb <->
     exists l, rep_processors pvec sb = Some l /\ In pr l) /\
  (forall pr, ~ In pr pvec -> rep_subblock pvec pr = None).
Proof. exact rep_owner_lemma. Qed.
Print Assumptions C13_replicated_owners_agree.

Example C13_replicated_example :
  rep_subblock [4;1] 1 = Some 0 /\ rep_subblock [4;1] 2 = None /\ rep_processors [4;1] 0 = Some [4;1].
Proof. repeat split. Qed.

(** Finding: the constructor accepts a user-supplied processor vector
    with repetitions; a processor is then listed for a subblock that
    subblock(pr) does not report. *)
Theorem C13_repeated_processor_refuted :
  exists m procs pvec pr sb, map_ok m /\ map_pvec m procs = Some pvec /\
    map_processors m pvec sb = Some [pr] /\ map_subblock m pvec pr <> Some sb.
Proof.
  exists [(Block 2, 10)], [3;3], [3;3], 3, 1. repeat split; try discriminate. repeat constructor.
Qed.
Print Assumptions C13_repeated_processor_refuted.

(** operator== *)
Theorem C14_equal_maps_place_identically :
  forall a b, map_eq a b = true -> forall lens g pr l, placed a lens g pr l <-> placed b lens g pr l.
Proof. exact map_eq_lemma. Qed.
Print Assumptions C14_equal_maps_place_identically.

Example C14_example :
  let a := {| u_d := [Block 2; Whole; Whole]; u_pvec := [1;0] |} in
  map_eq a a = true /\ placed a [10] [7] 0 [2] /\
  map_eq a {| u_d := [Block 2; Whole; Whole]; u_pvec := [0;1] |} = false.
Proof.
  repeat split. exists [(Block 2, 10)], 1, [0]. repeat split. left; reflexivity.
Qed.

(** map_equiv<D> on two maps of the same type, both applicable to the
    D-dimensional domain. *)
Theorem C14_equivalent_maps_place_identically :
  forall D a b, built a -> built b -> same_type a b ->
  forall lens ma mb, length lens = D -> apply_map a lens = Some ma -> apply_map b lens = Some mb ->
  map_equiv D a b = Some true -> forall g pr l, placed a lens g pr l <-> placed b lens g pr l.
Proof. exact map_equiv_lemma. Qed.
Print Assumptions C14_equivalent_maps_place_identically.

(** ... and the comparison itself is always well defined there. *)
Theorem C14_map_equiv_defined :
  forall D a b, built a -> built b ->
  forall lens ma mb, length lens = D -> apply_map a lens = Some ma -> apply_map b lens = Some mb ->
  same_type a b -> exists r, map_equiv D a b = Some r.
Proof. exact map_equiv_total. Qed.
Print Assumptions C14_map_equiv_defined.

Example C14_equiv_example :
  let a := {| u_d := [Block 2; Block 1; Whole]; u_pvec := [1;0] |} in
  let b := {| u_d := [Block 2; Block 1; Whole]; u_pvec := [1;2] |} in
  built a /\ same_type a b /\ apply_map a [10] = Some [(Block 2, 10)] /\
  map_equiv 1 a a = Some true /\ map_equiv 1 a b = Some false.
Proof. repeat split; repeat constructor. Qed.

(** foreach_point: each local element exactly once, with its global index. *)
Theorem C18_foreach_point_exactly_once :
  forall m sb ext, map_ok m -> 1 <= length m <= 3 -> map_subblock_extent m sb = Some ext ->
  exists pts n, (forall fuel, n <= fuel -> foreach_point fuel m (Some sb) = Some pts) /\
    NoDup (map fst pts) /\
    (forall l g, In (l, g) pts <-> in_range ext l /\ map_global_from_local_index m sb l = Some g) /\
    (forall l, In l (map fst pts) <-> in_range ext l).
Proof. exact foreach_point_lemma. Qed.
Print Assumptions C18_foreach_point_exactly_once.

(** foreach_patch: the local domains passed tile the subblock, with the
    matching global domains. *)
Theorem C18_foreach_patch_tiles :
  forall m sb ext, map_ok m -> map_subblock_extent m sb = Some ext ->
  exists ps, foreach_patch m (Some sb) = Some ps /\
    (forall l, in_range ext l <-> exists j ld gd, nth_error ps j = Some (ld, gd) /\ in_box ld l) /\
    (forall l j j' ld gd ld' gd', nth_error ps j = Some (ld, gd) -> in_box ld l ->
       nth_error ps j' = Some (ld', gd') -> in_box ld' l -> j' = j) /\
    (forall ld gd, In (ld, gd) ps -> map snd ld = map snd gd /\
       forall x, in_range (map snd ld) x ->
         map_global_from_local_index m sb (domain_nth ld x) = Some (domain_nth gd x)).
Proof. exact foreach_patch_lemma. Qed.
Print Assumptions C18_foreach_patch_tiles.

Example C18_example :
  let m := [(Cyclic 2 1, 3); (Block 2, 3)] in
  map_subblock_extent m 0 = Some [2;2] /\
  foreach_point 50 m (Some 0) = Some [([0;0],[0;0]);([0;1],[0;1]);([1;0],[2;0]);([1;1],[2;1])] /\
  foreach_patch m (Some 0) = Some [([(0,1);(0,2)],[(0,1);(0,2)]); ([(1,1);(0,2)],[(2,1);(0,2)])] /\
  foreach_point 50 m None = Some [].
Proof. repeat split. Qed.
