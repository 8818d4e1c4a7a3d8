(** C84: groups, communicators, reductions across processes. *)
From Coq Require Import List Arith ZArith Lia Bool.
From Verif Require Import Base Mpi MpiProofs.
Import ListNotations.

(** Ranks: every number below size() is the rank of exactly one process, no
    process has another, and size() is 0 exactly for the empty group; however
    the group was made. *)
Theorem C84_ranks n o : made n o ->
  (forall p k, g_rank p o = Some k -> k < g_size o) /\
  (forall k, k < g_size o -> exists p, g_rank p o = Some k /\ forall q, g_rank q o = Some k -> q = p) /\
  (g_size o = 0 <-> forall p, ~ member p o).
Proof. exact (ranks_ok n o). Qed.

(** include(): the process of rank ranks[k] in the old group has rank k in the
    new one, and there are no others. *)
Theorem C84_include n ptr o ranks o' : made n o -> include ptr o ranks = Some o' ->
  g_size o' = length ranks /\
  forall p k, g_rank p o' = Some k <-> exists r, nth_error ranks k = Some r /\ g_rank p o = Some r.
Proof. exact (include_ok n ptr o ranks o'). Qed.

(** include() and exclude() accept any distinct ranks of the group. *)
Theorem C84_include_accepts n ptr o ranks : made n o -> NoDup ranks -> (forall r, In r ranks -> r < g_size o) ->
  exists o', include ptr o ranks = Some o'.
Proof. exact (include_defined n ptr o ranks). Qed.
Theorem C84_exclude_accepts n ptr o ranks : made n o -> NoDup ranks -> (forall r, In r ranks -> r < g_size o) ->
  exists o', exclude ptr o ranks = Some o'.
Proof. exact (exclude_defined n ptr o ranks). Qed.

Example C84_include_example :
  made 4 (wrap [0;1;2;3]) /\ include false (wrap [0;1;2;3]) [3;1] = Some (Some [3;1]) /\
  g_rank 3 (Some [3;1]) = Some 0 /\ g_rank 1 (Some [3;1]) = Some 1 /\ g_rank 0 (Some [3;1]) = None.
Proof. split; [exact (md_world 4)|]. repeat split; reflexivity. Qed.

(** exclude() of at least one rank, or with the ranks as an array of int: the
    other processes stay, in the same order. *)
Theorem C84_exclude n ptr o ranks o' : made n o -> exclude ptr o ranks = Some o' -> ptr = true \/ ranks <> [] ->
  (forall p, member p o' <-> exists r, g_rank p o = Some r /\ ~ In r ranks) /\
  (forall p q, member p o' -> member q o' -> (before o' p q <-> before o p q)).
Proof. exact (exclude_ok n ptr o ranks o'). Qed.

Example C84_exclude_example :
  exclude false (wrap [0;1;2;3]) [1] = Some (Some [0;2;3]) /\ exclude true (wrap [0;1;2;3]) [] = Some (Some [0;1;2;3]) /\
  g_rank 2 (Some [0;2;3]) = Some 1.
Proof. repeat split; reflexivity. Qed.

(** Defect: exclude(begin, end) of an empty sequence of ranks gives the empty
    group; the same call with int pointers gives the whole group
    (group.hpp: the general template was copied from include). *)
Theorem C84_exclude_nothing_refuted : forall n, 0 < n ->
  exclude false (wrap (seq 0 n)) [] = Some None /\
  (forall p, p < n -> member p (wrap (seq 0 n)) /\ ~ member p None) /\
  exclude true (wrap (seq 0 n)) [] = Some (wrap (seq 0 n)).
Proof.
  intros n H. split; [reflexivity|]. split.
  - intros p L. split; [|intros (k & E); discriminate]. apply member_in. rewrite raw_wrap. apply in_seq. lia.
  - unfold exclude, mpi_excl. cbn [negb andb distinct forallb]. rewrite raw_wrap, exclude_none. reflexivity.
Qed.

(** Union, intersection and difference of groups: their members, and the order
    of the members. *)
Theorem C84_union n a b : made n a -> made n b ->
  (forall p, member p (g_union a b) <-> member p a \/ member p b) /\
  (forall p k, g_rank p a = Some k -> g_rank p (g_union a b) = Some k) /\
  (forall p q, member p a -> member q b -> ~ member q a -> before (g_union a b) p q) /\
  (forall p q, ~ member p a -> ~ member q a -> member p b -> member q b -> (before (g_union a b) p q <-> before b p q)).
Proof. exact (union_ok n a b). Qed.
Theorem C84_intersection n a b : made n a -> made n b ->
  (forall p, member p (g_inter a b) <-> member p a /\ member p b) /\
  (forall p q, member p (g_inter a b) -> member q (g_inter a b) -> (before (g_inter a b) p q <-> before a p q)).
Proof. exact (inter_ok n a b). Qed.
Theorem C84_difference n a b : made n a -> made n b ->
  (forall p, member p (g_diff a b) <-> member p a /\ ~ member p b) /\
  (forall p q, member p (g_diff a b) -> member q (g_diff a b) -> (before (g_diff a b) p q <-> before a p q)).
Proof. exact (diff_ok n a b). Qed.

Example C84_sets_example :
  made 5 (Some [3;1]) /\ made 5 (Some [0;3;4]) /\
  g_union (Some [3;1]) (Some [0;3;4]) = Some [3;1;0;4] /\ g_inter (Some [3;1]) (Some [0;3;4]) = Some [3] /\
  g_diff (Some [3;1]) (Some [0;3;4]) = Some [1] /\ g_diff (Some [3]) (Some [0;3;4]) = None.
Proof.
  split; [apply (md_incl 5 false (wrap [0;1;2;3;4]) [3;1] _ (md_world 5)); reflexivity|].
  split; [apply (md_incl 5 true (wrap [0;1;2;3;4]) [0;3;4] _ (md_world 5)); reflexivity|].
  repeat split; reflexivity.
Qed.

(** translate_ranks(): each entry is the rank in the second group of the
    process the rank means in the first, or MPI_UNDEFINED. *)
Theorem C84_translate n undef ptr a ranks b : made n a -> made n b -> (forall r, In r ranks -> r < g_size a) ->
  exists out, translate undef ptr a ranks b = Some out /\ length out = length ranks /\
  forall k r p, nth_error ranks k = Some r -> g_rank p a = Some r ->
    nth_error out k = Some (match g_rank p b with Some j => Z.of_nat j | None => undef end).
Proof. exact (translate_ok n undef ptr a ranks b). Qed.

Example C84_translate_example :
  translate (-32766) false (Some [3;1]) [1;0] (Some [0;3;4]) = Some [-32766; 1]%Z.
Proof. reflexivity. Qed.

(** Defect: translate_ranks() into numbers of index_type does not give no_rank
    (the largest index_type) for a process outside the second group, as
    rank() documents it, but MPI_UNDEFINED cut to 64 bits, whatever negative int
    MPI_UNDEFINED is, unless it is -1. *)
Theorem C84_translate_outside_refuted : forall undef, (- 2 ^ 31 <= undef < -1)%Z ->
  exists out, translate undef false (Some [3;1]) [1] (Some [0;3;4]) = Some out /\
    g_rank 1 (Some [0;3;4]) = None /\ map to_index out <> [2 ^ 64 - 1]%Z.
Proof.
  intros undef H. exists [undef]. split; [reflexivity|]. split; [reflexivity|]. cbn [map]. unfold to_index.
  replace undef with (undef + 2 ^ 64 + (-1) * 2 ^ 64)%Z by lia. rewrite Z.mod_add, Z.mod_small by lia.
  intros E. injection E. lia.
Qed.

(** Processor numbers: with a communicator that was not made by the default
    constructor, processor_set() is 0, ..., num_processors()-1, and the index of
    each process in it is its number, which no other process has. *)
Theorem C84_processor_numbers world c : NoDup world -> cmade world c ->
  forall p k, c_rank p c = Some k -> exists n, num_processors c = Some n /\ k < n /\
    c_pvec c = seq 0 n /\ local_processor p c = Some k /\ local_processor_index p c = Some k /\
    forall q, c_rank q c = Some k -> q = p.
Proof. exact (processor_numbers world c). Qed.

(** Communicator(comm, group): processes outside the group get none; in the
    group each has its rank there. *)
Theorem C84_subgroup world n c g : NoDup world -> cmade world c -> made n g ->
  (forall p, member p g -> exists k, c_rank p c = Some k) ->
  forall i me k, c_rank me c = Some k -> exists c', c_sub i me c g = Some c' /\
    (c_valid c' = true <-> member me g) /\
    (member me g -> forall p, c_rank p c' = g_rank p g) /\ (member me g -> num_processors c' = Some (g_size g)).
Proof. exact (sub_ok world n c g). Qed.

(** group(): the communicator's processes with their ranks. *)
Theorem C84_group world c : NoDup world -> cmade world c -> c_valid c = true ->
  exists g, c_group c = Some g /\ (forall p, g_rank p g = c_rank p c) /\ Some (g_size g) = num_processors c.
Proof. exact (group_ok world c). Qed.

(** split(colour, key): a process's new communicator has the processes of its
    colour, ordered by key and, for equal keys, by their old ranks. *)
Theorem C84_split world c : NoDup world -> cmade world c ->
  forall colour key i me k, c_rank me c = Some k -> exists c', c_split i me c colour key = Some c' /\
    (c_valid c' = true <-> colour me <> None) /\
    (forall x, colour me = Some x -> forall p, (exists j, c_rank p c' = Some j) <-> (exists j, c_rank p c = Some j) /\ colour p = Some x) /\
    (forall p q, (exists j, c_rank p c' = Some j) -> (exists j, c_rank q c' = Some j) ->
       (c_before c' p q <-> (key p < key q)%Z \/ (key p = key q /\ c_before c p q))).
Proof. exact (split_ok world c). Qed.

(** split(colour): the same, in the old order. *)
Theorem C84_split_order world c : NoDup world -> cmade world c ->
  forall colour i me k, c_rank me c = Some k -> exists c', c_split1 i me c colour = Some c' /\
    (forall p q, (exists j, c_rank p c' = Some j) -> (exists j, c_rank q c' = Some j) ->
       (c_before c' p q <-> c_before c p q)).
Proof. exact (split1_ok world c). Qed.

Example C84_split_example :
  let world := [0;1;2;3;4;5] in
  let c := c_make Duplicate 7 (Some (0, world)) in
  cmade world c /\ c_rank 3 c = Some 3 /\
  c_split 8 3 c (fun p => Some (p mod 2)) (fun p => (- Z.of_nat p)%Z) = Some (C (Some (8, [5;3;1])) [0;1;2]) /\
  c_split1 8 3 c (fun p => Some (p mod 2)) = Some (C (Some (8, [1;3;5])) [0;1;2]) /\
  c_sub 9 3 c (Some [3;1]) = Some (C (Some (9, [3;1])) [0;1]) /\ c_sub 9 2 c (Some [3;1]) = Some (C None []).
Proof. split; [apply cm_world|]. repeat split; reflexivity. Qed.

(** A communicator equals itself, and a copy of it. *)
Theorem C84_equality c : c_valid c = true -> c_eq c c = Some true.
Proof. exact (equal_ok c). Qed.
(** An object attached to a communicator equals one that takes it over and
    differs from a duplicate. *)
Theorem C84_duplicate_differs i id g : i <> id ->
  c_eq (c_make Attach i (Some (id, g))) (c_make Duplicate i (Some (id, g))) = Some false /\
  c_eq (c_make Attach i (Some (id, g))) (c_make TakeOwnership i (Some (id, g))) = Some true.
Proof. exact (duplicate_differs i id g). Qed.

(** Defect: Communicator() is MPI_COMM_WORLD with an empty processor_set(): the
    number of processors is right, but no process finds its index. *)
Theorem C84_default_communicator_refuted : forall world id p k, NoDup world -> nth_error world k = Some p ->
  let c := c_default (id, world) in
  num_processors c = Some (length world) /\ local_processor p c = Some k /\
  c_pvec c = [] /\ local_processor_index p c = None.
Proof.
  intros world id p k N E c. split; [reflexivity|].
  assert (R : local_processor p c = Some k) by (apply pos_nth; assumption).
  split; [exact R|]. split; [reflexivity|]. unfold local_processor_index. rewrite R. reflexivity.
Qed.

(** Limitation: comparing a null communicator with any, even with itself, is an
    error, and so is asking for its size. *)
Theorem C84_null_communicator_refuted : forall world c, exists z, cmade world z /\ c_valid z = false /\
  c_eq z c = None /\ c_eq z z = None /\ num_processors z = None.
Proof. intros world c. exists (C None []). split; [apply (cm_null world Attach 0)|]. repeat split; reflexivity. Qed.

(** Each element is sent as a type of its size. *)
Theorem C84_element_sizes t : msize (datatype t) = csize t.
Proof. exact (datatype_size t). Qed.

(** allreduce() over the C integer types: the sum, the minimum, the maximum,
    whether all values are true and whether any is.  (Sums are exact in the model.) *)
Theorem C84_allreduce t v vs : is_integer t ->
  allreduce t Rsum v vs = Some (fold_right Z.add 0%Z (v :: vs)) /\
  (exists m, allreduce t Rmin v vs = Some m /\ In m (v :: vs) /\ forall x, In x (v :: vs) -> (m <= x)%Z) /\
  (exists m, allreduce t Rmax v vs = Some m /\ In m (v :: vs) /\ forall x, In x (v :: vs) -> (x <= m)%Z) /\
  (exists b, allreduce t Rall_true v vs = Some b /\ (b = 1 \/ b = 0)%Z /\ (b = 1%Z <-> forall x, In x (v :: vs) -> x <> 0%Z)) /\
  (exists b, allreduce t Rany_true v vs = Some b /\ (b = 1 \/ b = 0)%Z /\ (b = 1%Z <-> exists x, In x (v :: vs) /\ x <> 0%Z)).
Proof. exact (allreduce_integers t v vs). Qed.

(** allreduce() of bool with the reductions for bool. *)
Theorem C84_allreduce_bool v vs : (forall x, In x (v :: vs) -> (x = 0 \/ x = 1)%Z) ->
  (exists b, allreduce Tbool Rall_true_bool v vs = Some b /\ (b = 1 \/ b = 0)%Z /\ (b = 1%Z <-> forall x, In x (v :: vs) -> x = 1%Z)) /\
  (exists b, allreduce Tbool Rany_true_bool v vs = Some b /\ (b = 1 \/ b = 0)%Z /\ (b = 1%Z <-> exists x, In x (v :: vs) /\ x = 1%Z)).
Proof. exact (allreduce_bools v vs). Qed.

Example C84_allreduce_example :
  allreduce Tint Rsum 4 [-1; 7]%Z = Some 10%Z /\ allreduce Tint Rmin 4 [-1; 7]%Z = Some (-1)%Z /\
  allreduce Tint Rall_true 4 [0; 7]%Z = Some 0%Z /\ allreduce Tbool Rany_true_bool 0 [1; 0]%Z = Some 1%Z.
Proof. repeat split; reflexivity. Qed.

(** Defect: allreduce() of complex numbers (a sum over a distributed complex
    view) is an error for every reduction: the predefined operations of MPI are not
    defined for the derived type the library makes of two reals. *)
Theorem C84_allreduce_complex_refuted : forall t r v vs, allreduce (Tcomplex t) r v vs = None.
Proof. intros t [] v vs; reflexivity. Qed.

(** Defect: allreduce() of signed char and char is an error for every
    reduction (MPI_CHAR is text), and that of bool for all but the two reductions
    for bool. *)
Theorem C84_allreduce_small_types_refuted : forall r v vs,
  allreduce Tchar r v vs = None /\ allreduce Tschar r v vs = None /\
  (r <> Rall_true_bool -> r <> Rany_true_bool -> allreduce Tbool r v vs = None).
Proof. intros [] v vs; repeat split; try reflexivity; congruence. Qed.

(** Limitation: reduce_all_true_bool of numbers is their bitwise conjunction: 1
    and 2 are both true, the result is false. *)
Theorem C84_all_true_bitwise_refuted :
  allreduce Tint Rall_true_bool 1 [2]%Z = Some 0%Z /\ allreduce Tint Rall_true 1 [2]%Z = Some 1%Z.
Proof. split; reflexivity. Qed.

(** The MPI type of bool, complex<T> and Index<D> is made at first use: once one
    call has returned, every thread gets it in every schedule. *)
Theorem C84_type_after_first_use s sched : t_first s = false -> t_ready s = true ->
  (forall i b, nth_error (t_thr s) i = Some (Got b) -> b = true) ->
  forall i b, nth_error (t_thr (truns s sched)) i = Some (Got b) -> b = true.
Proof. exact (threads_ok s sched). Qed.

Example C84_type_after_first_use_example :
  let s := truns (TS true false [Start]) [0;0;0] in
  s = TS false true [Got true] /\
  truns (TS (t_first s) (t_ready s) [Start; Start]) [0;1;1;0] = TS false true [Got true; Got true].
Proof. split; reflexivity. Qed.

(** Defect: two threads that use such a type for the first time at once: there
    is a schedule in which the second gets an uninitialized MPI_Datatype. *)
Theorem C84_type_first_use_refuted : exists sched,
  nth_error (t_thr (truns (TS true false [Start; Start]) sched)) 1 = Some (Got false).
Proof. exists [0;1;1]. reflexivity. Qed.

(** Lifetimes: whatever communicators a process makes, copies, assigns and
    destroys, one the library owns is not freed while an object uses it, is freed
    exactly once when the last is gone before MPI_Finalize, and never twice. *)
Theorem C84_lifetimes ops h : let s := lruns ops in
  (in_use s h -> count h (l_freed s) = 0) /\ count h (l_freed s) <= 1 /\
  (h < owned_made ops -> ~ in_use s h -> ~ In LFinalize ops -> count h (l_freed s) = 1) /\
  (owned_made ops <= h -> count h (l_freed s) = 0).
Proof. exact (lifetimes_history ops h). Qed.

(** After MPI_Finalize nothing is freed. *)
Theorem C84_after_finalize ops more : In LFinalize ops -> l_freed (lruns (ops ++ more)) = l_freed (lruns ops).
Proof. exact (nothing_after_finalize ops more). Qed.

Example C84_lifetimes_example :
  l_freed (lruns [LNew; LCopy 0; LMake Duplicate 5; LDestroy 0; LAssign 1 2; LDestroy 2]) = [0] /\
  l_freed (lruns [LNew; LMake Attach 0; LDestroy 1; LFinalize; LDestroy 0]) = [] /\
  in_use (lruns [LNew; LCopy 0; LDestroy 0]) 0.
Proof. split; [reflexivity|]. split; [reflexivity|]. exists 1, 0. split; reflexivity. Qed.

Print Assumptions C84_ranks.
Print Assumptions C84_include.
Print Assumptions C84_include_accepts.
Print Assumptions C84_exclude_accepts.
Print Assumptions C84_exclude.
Print Assumptions C84_exclude_nothing_refuted.
Print Assumptions C84_union.
Print Assumptions C84_intersection.
Print Assumptions C84_difference.
Print Assumptions C84_translate.
Print Assumptions C84_translate_outside_refuted.
Print Assumptions C84_processor_numbers.
Print Assumptions C84_subgroup.
Print Assumptions C84_group.
Print Assumptions C84_split.
Print Assumptions C84_split_order.
Print Assumptions C84_equality.
Print Assumptions C84_duplicate_differs.
Print Assumptions C84_default_communicator_refuted.
Print Assumptions C84_null_communicator_refuted.
Print Assumptions C84_element_sizes.
Print Assumptions C84_allreduce.
Print Assumptions C84_allreduce_bool.
Print Assumptions C84_allreduce_complex_refuted.
Print Assumptions C84_allreduce_small_types_refuted.
Print Assumptions C84_all_true_bitwise_refuted.
Print Assumptions C84_type_after_first_use.
Print Assumptions C84_type_first_use_refuted.
Print Assumptions C84_lifetimes.
Print Assumptions C84_after_finalize.
