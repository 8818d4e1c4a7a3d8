(** C83: the transpose of a distributed matrix keeps every element where
    it is.  [u] is the map of an r x c matrix, [placed u [r; c] g pr l]
    says that element [g] of the matrix is on processor [pr] at local
    index [l]; [rev] exchanges the two entries of an index. *)
From Coq Require Import List Arith Lia Bool.
From Verif Require Import Base Dist Traversal Map TransMap TransMapProofs.
Import ListNotations.

(** Every element of the transpose is in exactly one patch of one subblock. *)
Theorem C83_each_element_in_one_patch :
  forall u r c m, built u -> NoDup (u_pvec u) -> apply_map u [r; c] = Some m ->
  let t := transpose_map (of_map m (u_pvec u)) in
  (forall i j, i < c -> j < r -> exists sb p, holds t sb p [i; j] /\
     forall sb' p', holds t sb' p' [i; j] -> sb' = sb /\ p' = p) /\
  (forall sb p x, holds t sb p x -> exists i j, x = [i; j] /\ i < c /\ j < r).
Proof. intros u r c m Hb Nd Ea t. split; [exact (one_patch u r c m Hb Ea)|exact (inside u r c m Hb Ea)]. Qed.
Print Assumptions C83_each_element_in_one_patch.

(** The processors that own the subblock of an element of the transpose
    are those that have the element of the matrix. *)
Theorem C83_element_stays_on_its_processor :
  forall u r c m, built u -> NoDup (u_pvec u) -> apply_map u [r; c] = Some m ->
  let t := transpose_map (of_map m (u_pvec u)) in
  forall sb p i j pr, holds t sb p [i; j] ->
  (owns t pr sb <-> exists l, placed u [r; c] [j; i] pr l).
Proof. intros u r c m Hb Nd Ea t sb p i j pr H. exact (owners u r c m Hb Nd Ea sb p [i; j] pr H). Qed.
Print Assumptions C83_element_stays_on_its_processor.

(** Element by element, the local patch of the transpose is where the
    elements of its global patch are. *)
Theorem C83_patches_match_the_storage :
  forall u r c m, built u -> NoDup (u_pvec u) -> apply_map u [r; c] = Some m ->
  let t := transpose_map (of_map m (u_pvec u)) in
  forall sb p gd, g_gdom t (Some sb) p = Some gd ->
  exists ld, g_ldom t (Some sb) p = Some ld /\ map snd ld = map snd gd /\
    forall x pr, in_range (map snd gd) x -> owns t pr sb ->
      placed u [r; c] (rev (domain_nth gd x)) pr (rev (domain_nth ld x)).
Proof. intros u r c m Hb Nd Ea t. exact (patches_match u r c m Hb Nd Ea). Qed.
Print Assumptions C83_patches_match_the_storage.

(** The extent of a subblock of the transpose covers exactly the elements
    that its processor has. *)
Theorem C83_extent_is_what_the_processor_has :
  forall u r c m, built u -> NoDup (u_pvec u) -> apply_map u [r; c] = Some m ->
  let t := transpose_map (of_map m (u_pvec u)) in
  forall pr sb, owns t pr sb -> exists ext, g_extent t (Some sb) = Some ext /\
    forall l, in_range ext l <-> exists g, placed u [r; c] g pr (rev l).
Proof. intros u r c m Hb Nd Ea t. exact (extents u r c m Hb Nd Ea). Qed.
Print Assumptions C83_extent_is_what_the_processor_has.

(** local_from_global_index of the transpose, in either dimension. *)
Theorem C83_local_indices :
  forall u r c m, built u -> NoDup (u_pvec u) -> apply_map u [r; c] = Some m ->
  let t := transpose_map (of_map m (u_pvec u)) in
  forall i j pr a b, placed u [r; c] [j; i] pr [b; a] ->
  g_local_index t 0 i = Some a /\ g_local_index t 1 j = Some b.
Proof. intros u r c m Hb Nd Ea t. exact (local_indices u r c m Hb Nd Ea). Qed.
Print Assumptions C83_local_indices.

(** foreach_point(a.transpose(), f): every element of the matrix that the
    processor has is replaced once, by f of its value, its local index and
    its global index in the transpose; nothing else is written. *)
Theorem C83_foreach_point_of_the_transpose :
  forall u r c m, built u -> NoDup (u_pvec u) -> apply_map u [r; c] = Some m ->
  let t := transpose_map (of_map m (u_pvec u)) in
  forall (V : Type) (f : V -> list nat -> list nat -> V) pr (b : list nat -> V), exists b' n,
  (forall fuel, n <= fuel -> foreach_point_t V fuel f t pr b = Some b') /\
  (forall i j l, placed u [r; c] [j; i] pr l -> b' l = f (b l) (rev l) [i; j]) /\
  (forall l, ~ (exists g, placed u [r; c] g pr l) -> b' l = b l).
Proof. intros u r c m Hb Nd Ea t. exact (foreach_point_ok u r c m Hb Nd Ea). Qed.
Print Assumptions C83_foreach_point_of_the_transpose.

(** Transposing twice gives the placement of the matrix itself. *)
Theorem C83_transposed_twice :
  forall u r c m, built u -> NoDup (u_pvec u) -> apply_map u [r; c] = Some m ->
  let o := of_map m (u_pvec u) in let t2 := transpose_map (transpose_map o) in
  forall sb p d i, sb < g_subblocks o ->
  g_subblocks t2 = g_subblocks o /\ (forall pr, g_subblock t2 pr = g_subblock o pr) /\
  g_procs t2 sb = g_procs o sb /\
  g_patches t2 (Some sb) = g_patches o (Some sb) /\ g_extent t2 (Some sb) = g_extent o (Some sb) /\
  g_gdom t2 (Some sb) p = g_gdom o (Some sb) p /\ g_ldom t2 (Some sb) p = g_ldom o (Some sb) p /\
  g_local_index t2 d i = g_local_index o d i.
Proof. intros u r c m Hb Nd Ea o t2 sb p d i H. exact (twice u r c m Hb Ea sb p d i H). Qed.
Print Assumptions C83_transposed_twice.

(** A 3 x 4 matrix, block rows over 2 processors, cyclic columns over 2. *)
Definition ex_u : umap := {| u_d := [Block 2; Cyclic 2 1]; u_pvec := [7; 5; 3; 1] |}.
Definition ex_m : dims := [(Block 2, 3); (Cyclic 2 1, 4)].

Example C83_example :
  built ex_u /\ NoDup (u_pvec ex_u) /\ apply_map ex_u [3; 4] = Some ex_m /\
  let t := transpose_map (of_map ex_m (u_pvec ex_u)) in
  g_extent t (Some 1) = Some [2; 2] /\ g_patches t (Some 1) = Some 2 /\
  g_gdom t (Some 1) 1 = Some [(3, 1); (0, 2)] /\ g_ldom t (Some 1) 1 = Some [(1, 1); (0, 2)] /\
  owns t 5 1 /\ holds t 1 1 [3; 1] /\ placed ex_u [3; 4] [1; 3] 5 [1; 1] /\
  g_local_index t 0 3 = Some 1 /\
  option_map (fun b => map b [[0; 0]; [0; 1]; [1; 0]; [1; 1]])
    (foreach_point_t _ 50 (fun _ l g => (l, g)) t 5 (fun _ => ([], []))) =
    Some [([0; 0], [1; 0]); ([1; 0], [3; 0]); ([0; 1], [1; 1]); ([1; 1], [3; 1])].
Proof.
  split; [split; [repeat constructor|reflexivity]|].
  split; [repeat constructor; cbn; intuition discriminate|].
  split; [reflexivity|]. cbv zeta.
  split; [reflexivity|]. split; [reflexivity|]. split; [reflexivity|]. split; [reflexivity|]. split; [reflexivity|].
  split; [exists [(3, 1); (0, 2)]; split; [reflexivity|repeat constructor]|].
  split; [|split; reflexivity].
  exists ex_m, 1, [5]. repeat split; try reflexivity. now left.
Qed.

(** Defect: a program cannot ask where an element of the transpose of a
    distributed matrix is.  For every map and every index
    subblock_from_global_index (and patch_from_global_index, which has the
    same body) terminates the program: the function of the map throws
    "not implemented" although it is declared not to throw
    (transpose_map_decl.hpp 136-143).  The same question about the matrix
    itself has an answer. *)
Theorem C83_where_is_element_refuted :
  (forall g ext idx, subblock_of_index (transpose_map g) ext idx = None) /\
  exists u r c m j i sb, built u /\ NoDup (u_pvec u) /\ apply_map u [r; c] = Some m /\
    subblock_of_index (of_map m (u_pvec u)) [r; c] [j; i] = Some sb /\
    subblock_of_index (transpose_map (of_map m (u_pvec u))) [c; r] [i; j] = None.
Proof.
  split.
  - intros g ext idx. unfold subblock_of_index. destruct (forallb _ _); reflexivity.
  - exists ex_u, 3, 4, ex_m, 1, 3, 1. destruct C83_example as (H1 & H2 & H3 & _).
    split; [exact H1|]. split; [exact H2|]. split; [exact H3|]. split; reflexivity.
Qed.
Print Assumptions C83_where_is_element_refuted.

(** Defect: global_from_local_index of a transposed distributed matrix
    terminates the program, for every map, subblock and local index
    (transpose_map_decl.hpp 123-130). *)
Theorem C83_global_index_refuted :
  (forall g sb d i l, global_of_local (transpose_map g) sb d (i :: l) = None) /\
  exists u r c m, built u /\ NoDup (u_pvec u) /\ apply_map u [r; c] = Some m /\
    global_of_local (of_map m (u_pvec u)) 1 0 [1; 1] = Some [1; 3].
Proof.
  split; [reflexivity|]. exists ex_u, 3, 4, ex_m. destruct C83_example as (H1 & H2 & H3 & _).
  split; [exact H1|]. split; [exact H2|]. split; [exact H3|]. reflexivity.
Qed.
Print Assumptions C83_global_index_refuted.

(** Defect: on a processor that has no part of the matrix, subblock_domain
    of the matrix is empty, as documented (support.hpp 42-50), but
    subblock_domain of its transpose fails an assertion: transpose_map
    does not admit no_subblock (transpose_map_decl.hpp 82, 90, 99, 109). *)
Theorem C83_no_subblock_refuted :
  forall u r c m, built u -> apply_map u [r; c] = Some m -> forall pr, ~ In pr (u_pvec u) ->
  let o := of_map m (u_pvec u) in
  g_subblock o pr = None /\ g_extent o (g_subblock o pr) = Some [0; 0] /\
  g_gdom o (g_subblock o pr) 0 = Some [(0, 0); (0, 0)] /\
  g_subblock (transpose_map o) pr = None /\
  g_extent (transpose_map o) (g_subblock o pr) = None /\ g_gdom (transpose_map o) (g_subblock o pr) 0 = None.
Proof. exact no_subblock_lemma. Qed.
Print Assumptions C83_no_subblock_refuted.
Example C83_no_subblock_example :
  built ex_u /\ apply_map ex_u [3; 4] = Some ex_m /\ ~ In 9 (u_pvec ex_u) /\
  g_extent (of_map ex_m (u_pvec ex_u)) (map_subblock ex_m (u_pvec ex_u) 9) = Some [0; 0].
Proof.
  split; [apply C83_example|]. split; [reflexivity|]. split; [|reflexivity].
  cbn. intuition discriminate.
Qed.

(** Defect: a permuted view of a distributed tensor reports the tensor's
    own map (permuted.hpp 89), so it says that elements are where they are
    not.  Here the map of the (1,0,2) permutation puts element (0,1,0) of
    the view in subblock 0, of processor 7; the element is element (1,0,0)
    of the tensor, which is on processor 5 only. *)
Theorem C83_permuted_map_refuted :
  exists u m perm idx, built u /\ NoDup (u_pvec u) /\ apply_map u [2; 2; 1] = Some m /\
  perm = [1; 0; 2] /\ permuted_size perm [2; 2; 1] = [2; 2; 1] /\ idx = [0; 1; 0] /\
  let v := permuted_map (of_map m (u_pvec u)) in
  holds v 0 0 idx /\ g_home v idx = Some 0 /\ owns v 7 0 /\
  placed u [2; 2; 1] (permuted_arg perm idx) 5 [0; 0; 0] /\
  forall l, ~ placed u [2; 2; 1] (permuted_arg perm idx) 7 l.
Proof.
  exists {| u_d := [Block 2; Whole; Whole]; u_pvec := [7; 5] |}, [(Block 2, 2); (Whole, 2); (Whole, 1)], [1; 0; 2], [0; 1; 0].
  split; [split; [repeat constructor|reflexivity]|].
  split; [repeat constructor; cbn; intuition discriminate|].
  split; [reflexivity|]. split; [reflexivity|]. split; [reflexivity|]. split; [reflexivity|]. cbv zeta.
  split; [exists [(0, 1); (0, 2); (0, 1)]; split; [reflexivity|repeat constructor]|].
  split; [reflexivity|]. split; [reflexivity|].
  split; [exists [(Block 2, 2); (Whole, 2); (Whole, 1)], 1, [5]; repeat split; try reflexivity; now left|].
  intros l (m & sb & ps & E & H1 & H2 & H3 & _). vm_compute in E. injection E as <-.
  vm_compute in H1. injection H1 as <-. vm_compute in H2. injection H2 as <-. destruct H3 as [H3|[]]. discriminate.
Qed.
Print Assumptions C83_permuted_map_refuted.

(** Defect: a diagonal of a distributed matrix reports the matrix's
    two-dimensional map (diag.hpp 68); asking for the one-dimensional
    domain of any subblock fails an assertion (map.hpp 906). *)
Theorem C83_diag_map_refuted :
  forall u r c m sb, apply_map u [r; c] = Some m -> map_subblock_domain 1 m sb = None.
Proof.
  intros u r c m sb E. destruct (m_shape u r c m E) as (d0 & d1 & ->). unfold map_subblock_domain.
  destruct (sb <? _); reflexivity.
Qed.
Print Assumptions C83_diag_map_refuted.
Example C83_diag_example : apply_map ex_u [3; 4] = Some ex_m /\
  map_subblock_domain 2 ex_m 1 = Some [2; 2] /\ map_subblock_domain 1 ex_m 1 = None.
Proof. repeat split. Qed.

(** The map of the transpose of a matrix that shares its storage may be
    used for as long as the transpose exists, even if the matrix does not. *)
Theorem C83_map_outlives_the_matrix :
  forall h v o c, v_value v = false -> v_keeps v = [] -> 1 <= h (v_obj v) -> o <> v_obj v ->
  let (t, h') := transpose_view h v o c in use_map (drop_view h' v) t = Some tt.
Proof. exact shared_ok. Qed.
Print Assumptions C83_map_outlives_the_matrix.
Example C83_map_outlives_example :
  let (a, h) := new_matrix (fun _ => 0) 1 in
  v_value a = false /\ v_keeps a = [] /\ 1 <= h (v_obj a) /\ use_map h a = Some tt /\
  let (t, h') := transpose_view h a 2 3 in use_map (drop_view h' a) t = Some tt /\ drop_view h' a 1 = 1.
Proof. cbn. repeat split; lia. Qed.

(** Defect: the map of a transposed view refers to the map inside the
    argument's block (transpose_map_decl.hpp 184).  The block of a
    sub-view or of another transpose is part of the view, so the transpose
    of such a temporary - a(dom).transpose(), a.transpose().transpose() -
    uses the map of a destroyed object. *)
Theorem C83_map_of_temporary_refuted :
  (forall h v o c, v_value v = true -> h (v_obj v) = 1 -> ~ In (v_obj v) (v_keeps v) ->
     o <> v_obj v -> c <> v_obj v ->
     let (t, h') := transpose_view h v o c in use_map (drop_view h' v) t = None) /\
  (let (a, h) := new_matrix (fun _ => 0) 1 in
   let (s, h1) := sub_matrix h a 2 3 in
   let (t, h2) := transpose_view h1 s 4 5 in
   v_value s = true /\ h1 (v_obj s) = 1 /\ ~ In (v_obj s) (v_keeps s) /\
   use_map h2 t = Some tt /\ use_map (drop_view h2 s) t = None /\ drop_view h2 s 1 = 2) /\
  (let (a, h) := new_matrix (fun _ => 0) 1 in
   let (s, h1) := transpose_view h a 2 3 in
   let (t, h2) := transpose_view h1 s 4 5 in
   use_map h2 t = Some tt /\ use_map (drop_view h2 s) t = None).
Proof.
  split; [exact value_dangles|]. cbn. repeat split; try lia.
Qed.
Print Assumptions C83_map_of_temporary_refuted.
