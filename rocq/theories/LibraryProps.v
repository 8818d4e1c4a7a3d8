(** C63: the library is set up exactly while a vsipl object exists. *)
From Coq Require Import List Arith Lia Bool.
From Verif Require Import Base Library LibraryProofs.
Import ListNotations.
Local Open Scope nat_scope.

(** For every configuration, every program of the main thread that holds a
    vsipl object around everything else, and every number of other threads
    that use the library while they have vsipl objects of their own, in
    every interleaving: no use of the library fails and nothing is freed
    twice, the execution cannot get stuck or go on for ever, and when it has
    ended the shared part was set up once and torn down once and, with MPI,
    every thread has given back what it had; MPI is still up just when the
    application had initialized it.

    Partial: the main thread's object must be there before the other threads
    create theirs and until they are gone, and there is only one such period
    (see the theorems below); the buffer test in mpi::initialize is one
    step. *)
Theorem C63_lifecycle_partial : forall (c : config) (body : list op) (rest : list (list op)),
  balanced 1 0 body = true ->
  Forall (fun p => balanced 0 0 p = true) rest ->
  exists N, forall k s, reach c (main_program body :: rest) k s ->
    k <= N /\
    (forall i, step c s i <> Fail) /\
    ((exists i s', step c s i = Next s') \/
     (forallb idle (g_threads s) = true /\ g_count s = 0 /\ g_once s = 1 /\ g_gone s = 1 /\ g_buf s <> Live /\
      (g_mpi s = MpiUp <-> c_app c = true) /\
      (c_mpi c = true -> clean s))).
Proof.
  intros c body rest B F. exists (total c (start c (main_program body :: rest))). intros k s R.
  destruct (reach_inv c body B rest k s F R) as [I L]. destruct (Inv_good c body B s I) as [G P].
  split; [lia|]. split.
  - intros i H. destruct (G i) as [E|(s' & E & _)]; congruence.
  - destruct P as [P|(P1 & P2 & P3 & P4 & P5 & P7 & P6)]; [left; exact P|]. right.
    assert (P8 : g_mpi s = MpiUp <-> c_app c = true).
    { rewrite P7. unfold mpi2, mpi1. destruct (c_mpi c), (c_app c); cbn; split; congruence. }
    repeat split; auto; try apply P8.
    match goal with H : c_mpi c = true |- _ => rename H into M end.
    eapply Forall_impl; [|exact P6]. intros t [T1 T2]. unfold res in T2. rewrite M in T2. destruct T2 as (T2 & T3 & T4). auto.
Qed.
Print Assumptions C63_lifecycle_partial.

(** Its hypotheses: two more threads, with nested and repeated objects. *)
Example C63_lifecycle_example :
  balanced 1 0 [OUse; ONew; OUse; ODelete; OUse] = true /\
  Forall (fun p => balanced 0 0 p = true) [[ONew; OUse; ODelete; ONew; OUse; ONew; ODelete; OUse; ODelete]; []; [ONew; ODelete]].
Proof. split; [reflexivity|repeat constructor]. Qed.

(** While any object exists the library is usable: by every thread that has
    one itself, in every reachable state, and the shared part is up. *)
Theorem C63_usable : forall (c : config) (body : list op) (rest : list (list op)) k s i t,
  balanced 1 0 body = true ->
  Forall (fun p => balanced 0 0 p = true) rest ->
  reach c (main_program body :: rest) k s ->
  nth_error (g_threads s) i = Some t -> t_now t = [] -> 0 < t_count t ->
  usable c s t = true.
Proof. exact usable_reach. Qed.
Print Assumptions C63_usable.

Example C63_usable_example : exists k s t,
  reach {| c_mpi := true; c_app := false |} (main_program [] :: [[ONew; OUse; ODelete]]) k s /\
  nth_error (g_threads s) 1 = Some t /\ t_now t = [] /\ t_count t = 1.
Proof.
  do 3 eexists. split; [apply (runs_start _ _ [0;0;0;0;0;0;0;0;1;1;1;1;1;1]); vm_compute; reflexivity|].
  repeat split; vm_compute; reflexivity.
Qed.

(** Two threads create the first two objects at the same time: both have
    counted before either looks whether it is the first (global_count == 1,
    library.cpp 63, is read outside the lock), so the parts that are
    needed once per application are not initialized at all. *)
Theorem C63_first_objects_race_refuted : forall c, exists k s,
  reach c [[OSpawn; ONew; OUse; ODelete; OJoin]; [ONew; OUse; ODelete]] k s /\
  g_count s = 2 /\ g_once s = 0 /\ step c s 0 = Fail.
Proof.
  intros [[|] [|]].
  1,2: eexists _, _; split; [apply (runs_start _ _ [0;0;0;0;1;1;0;1;0;0;0;0]); vm_compute; reflexivity|repeat split; vm_compute; reflexivity].
  1,2: eexists _, _; split; [apply (runs_start _ _ [0;0;0;0;1;1;0;1;0;0;0]); vm_compute; reflexivity|repeat split; vm_compute; reflexivity].
Qed.
Print Assumptions C63_first_objects_race_refuted.

(** Two threads destroy the last two objects at the same time: both see the
    counter at 0 (library.cpp 125-141 read it outside the lock) and tear the
    shared part down twice. *)
Theorem C63_last_objects_race_refuted : forall c, exists k s,
  reach c [[ONew; OSpawn; OUse; ODelete; OJoin]; [ONew; OUse; ODelete]] k s /\ step c s 1 = Fail.
Proof.
  intros [[|] [|]].
  1,2: eexists _, _; split; [apply (runs_start _ _ [0;0;0;0;0;0; 0;0; 1;1;1;1;1;1; 1;1; 0;0; 0;0; 1;1; 0;1; 0]); vm_compute; reflexivity|vm_compute; reflexivity].
  1,2: eexists _, _; split; [apply (runs_start _ _ [0;0;0;0;0; 0;0; 1;1;1;1;1; 1;1; 0;0; 0;0; 1;1; 0;1; 0]); vm_compute; reflexivity|vm_compute; reflexivity].
Qed.
Print Assumptions C63_last_objects_race_refuted.

(** With MPI the library cannot be initialized again once the last object
    has been destroyed: mpi::finalize deletes the buffer but does not reset
    the pointer (mpi/service.cpp 55-65), so the next mpi::initialize does not
    initialize anything, and either its communicator asks a finalized MPI or
    the buffer is deleted again. *)
Theorem C63_reinitialization_refuted : forall a, exists k s,
  reach {| c_mpi := true; c_app := a |} [[ONew; OUse; ODelete; ONew; OUse; ODelete]] k s /\
  step {| c_mpi := true; c_app := a |} s 0 = Fail.
Proof.
  intros [|].
  - eexists _, _. split; [apply (runs_start _ _ (repeat 0 (6+2+6+6+2+3))); vm_compute; reflexivity|vm_compute; reflexivity].
  - eexists _, _. split; [apply (runs_start _ _ (repeat 0 (6+2+6+5))); vm_compute; reflexivity|vm_compute; reflexivity].
Qed.
Print Assumptions C63_reinitialization_refuted.

(** Without MPI allocator::finalize is never called (library.cpp 127-130 is
    inside #if OVXX_HAVE_MPI): the default allocator remains after the last
    object is gone, and each further round loses one. *)
Theorem C63_allocator_leak_refuted : forall a, exists k s t,
  reach {| c_mpi := false; c_app := a |} [[ONew; OUse; ODelete; ONew; OUse; ODelete]] k s /\
  g_threads s = [t] /\ idle t = true /\ t_count t = 0 /\ t_alloc t = true /\ t_lost t = 1.
Proof.
  intros [|].
  all: eexists _, _, _; split; [apply (runs_start _ _ (repeat 0 (5+2+4+5+2+4))); vm_compute; reflexivity|repeat split; vm_compute; reflexivity].
Qed.
Print Assumptions C63_allocator_leak_refuted.

(** A thread that has no vsipl object of its own cannot use the library
    although one exists in the program, against initfin.hpp 19-22 ("at least
    one vsipl object must exist. Creation of more vsipl objects has no
    additional effect"): the default allocator and the communicator are
    thread-local. *)
Theorem C63_other_thread_refuted : forall c, exists k s,
  reach c [[ONew; OSpawn; OJoin; ODelete]; [OUse]] k s /\ 0 < g_count s /\ step c s 1 = Fail.
Proof.
  intros [[|] [|]].
  1,2: eexists _, _; split; [apply (runs_start _ _ [0;0;0;0;0;0; 0;0; 1]); vm_compute; reflexivity|split; [vm_compute; lia|vm_compute; reflexivity]].
  1,2: eexists _, _; split; [apply (runs_start _ _ [0;0;0;0;0; 0;0; 1]); vm_compute; reflexivity|split; [vm_compute; lia|vm_compute; reflexivity]].
Qed.
Print Assumptions C63_other_thread_refuted.
