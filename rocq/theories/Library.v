(** * Initialization and finalization of the library

    Model of src/ovxx/library.cpp, src/ovxx/allocator.cpp and
    src/ovxx/mpi/service.cpp: what constructing and destroying vsipl
    objects does, from several threads (OVXX_ENABLE_THREADING).  OpenMP
    worker threads and the command line are not modelled. *)
From Coq Require Import List Arith Lia Bool.
From Verif Require Import Base.
Import ListNotations.
Local Open Scope nat_scope.

(** ** Configuration and state *)

(** [c_mpi]: OVXX_HAVE_MPI.  [c_app]: the application has called MPI_Init
    itself. *)
Record config := { c_mpi : bool; c_app : bool }.

(** What constructing, destroying and using amounts to, in atomic pieces.
    [WInc], [WDec]: the counter update under the mutex (library.cpp
    55-60, 118-123).  The other accesses to shared variables are plain
    reads outside the lock.  Testing and setting [buffer] in
    mpi::initialize is taken as one step. *)
Inductive micro :=
| WInc        (* ++global_count *)
| WEnter      (* if (thread_local_count++) return; *)
| WOnce       (* if (global_count == 1) { ... } *)
| WAlloc      (* allocator::initialize *)
| WMpi        (* mpi::initialize *)
| WDec        (* --global_count *)
| WLeave      (* --thread_local_count; if (!thread_local_count) ... *)
| WMpiFin     (* mpi::finalize(global_count == 0) *)
| WAllocFin   (* allocator::finalize *)
| WLast       (* if (!global_count) { ... } *)
| WUse        (* any use of the library *)
| WSpawn      (* the main thread starts the other threads *)
| WJoin.      (* the main thread waits for their end *)

Inductive op := ONew | ODelete | OUse | OSpawn | OJoin.

(** initialize (library.cpp 52-103). *)
Definition code_new (c : config) : list micro :=
  [WInc; WEnter; WOnce; WAlloc] ++ (if c_mpi c then [WMpi] else []).
(** finalize (library.cpp 108-143). *)
Definition code_delete (c : config) : list micro :=
  [WDec; WLeave] ++ (if c_mpi c then [WMpiFin; WAllocFin] else []) ++ [WLast].
Definition code_of (c : config) (o : op) : list micro :=
  match o with
  | ONew => code_new c
  | ODelete => code_delete c
  | OUse => [WUse]
  | OSpawn => [WSpawn]
  | OJoin => [WJoin]
  end.

(** One thread: thread_local_count, whether allocator::default_ and
    communicator are set, allocators no pointer leads to any more, the rest
    of the current operation and the operations after it. *)
Record thread := {
  t_count : nat; t_alloc : bool; t_comm : bool; t_lost : nat;
  t_now : list micro; t_next : list op
}.
Inductive mem := Null | Live | Freed.
Inductive mpi_state := MpiNo | MpiUp | MpiDown.
Record lib := {
  g_count : nat;              (* global_count *)
  g_once : nat;               (* how often the once-per-application part was set up *)
  g_gone : nat;               (* how often it was torn down *)
  g_buf : mem;                (* mpi/service.cpp: buffer *)
  g_own : bool;               (* finalize_mpi *)
  g_mpi : mpi_state;
  g_spawned : bool;
  g_threads : list thread     (* thread 0 is the main thread *)
}.
Definition set_thread (s : lib) (i : nat) (t : thread) : lib :=
  {| g_count := g_count s; g_once := g_once s; g_gone := g_gone s; g_buf := g_buf s; g_own := g_own s;
     g_mpi := g_mpi s; g_spawned := g_spawned s; g_threads := lset (g_threads s) i t |}.
Definition with_code (t : thread) (k : list micro) : thread :=
  {| t_count := t_count t; t_alloc := t_alloc t; t_comm := t_comm t; t_lost := t_lost t; t_now := k; t_next := t_next t |}.
Definition idle (t : thread) : bool :=
  match t_now t, t_next t with [], [] => true | _, _ => false end.

(** The library is usable by a thread: its allocator is set (get_default,
    allocator.hpp 45-49), the once-per-application part is up, and so is
    its communicator. *)
Definition usable (c : config) (s : lib) (t : thread) : bool :=
  t_alloc t && (g_once s =? S (g_gone s)) &&
  (negb (c_mpi c) || (t_comm t && match g_mpi s with MpiUp => true | _ => false end)).

(** ** Steps *)

Inductive outcome := Fail | Blocked | Next (s : lib).

Definition count_is (s : lib) (n : nat) : bool := g_count s =? n.

(** The shared part of a step: the new shared state and the thread's. *)
Definition micro_step (c : config) (s : lib) (t : thread) (m : micro) (k : list micro) : option (lib * thread) :=
  let t' := with_code t k in
  match m with
  | WInc => Some ({| g_count := S (g_count s); g_once := g_once s; g_gone := g_gone s; g_buf := g_buf s;
                     g_own := g_own s; g_mpi := g_mpi s; g_spawned := g_spawned s; g_threads := g_threads s |}, t')
  | WEnter =>
      Some (s, {| t_count := S (t_count t); t_alloc := t_alloc t; t_comm := t_comm t; t_lost := t_lost t;
                  t_now := if t_count t =? 0 then k else []; t_next := t_next t |})
  | WOnce =>
      if count_is s 1
      then Some ({| g_count := g_count s; g_once := S (g_once s); g_gone := g_gone s; g_buf := g_buf s;
                    g_own := g_own s; g_mpi := g_mpi s; g_spawned := g_spawned s; g_threads := g_threads s |}, t')
      else Some (s, t')
  | WAlloc =>
      Some (s, {| t_count := t_count t; t_alloc := true; t_comm := t_comm t;
                  t_lost := if t_alloc t then S (t_lost t) else t_lost t; t_now := k; t_next := t_next t |})
  | WMpi => (* mpi/service.cpp 30-54 *)
      let s' := match g_buf s with
                | Null =>
                    let up := match g_mpi s with MpiNo => false | _ => true end in
                    {| g_count := g_count s; g_once := g_once s; g_gone := g_gone s; g_buf := Live;
                       g_own := if up then g_own s else true;
                       g_mpi := if up then g_mpi s else MpiUp;
                       g_spawned := g_spawned s; g_threads := g_threads s |}
                | _ => s
                end in
      match g_mpi s' with  (* new Communicator asks MPI for the size *)
      | MpiUp => Some (s', {| t_count := t_count t; t_alloc := t_alloc t; t_comm := true; t_lost := t_lost t;
                              t_now := k; t_next := t_next t |})
      | _ => None
      end
  | WDec =>
      match g_count s with
      | 0 => None
      | S n => Some ({| g_count := n; g_once := g_once s; g_gone := g_gone s; g_buf := g_buf s;
                        g_own := g_own s; g_mpi := g_mpi s; g_spawned := g_spawned s; g_threads := g_threads s |}, t')
      end
  | WLeave =>
      match t_count t with
      | 0 => None
      | S n => Some (s, {| t_count := n; t_alloc := t_alloc t; t_comm := t_comm t; t_lost := t_lost t;
                           t_now := if n =? 0 then k else [WLast]; t_next := t_next t |})
      end
  | WMpiFin => (* mpi/service.cpp 55-65 *)
      let t'' := {| t_count := t_count t; t_alloc := t_alloc t; t_comm := false; t_lost := t_lost t;
                    t_now := k; t_next := t_next t |} in
      if count_is s 0
      then match g_buf s, g_own s, g_mpi s with
           | Freed, _, _ => None                   (* delete[] of a deleted buffer *)
           | _, true, MpiDown => None              (* MPI_Finalize twice *)
           | b, own, m =>
               Some ({| g_count := g_count s; g_once := g_once s; g_gone := g_gone s;
                        g_buf := match b with Live => Freed | _ => b end;
                        g_own := own; g_mpi := if own then MpiDown else m;
                        g_spawned := g_spawned s; g_threads := g_threads s |}, t'')
           end
      else Some (s, t'')
  | WAllocFin =>
      Some (s, {| t_count := t_count t; t_alloc := false; t_comm := t_comm t; t_lost := t_lost t;
                  t_now := k; t_next := t_next t |})
  | WLast =>
      if count_is s 0
      then if g_once s <=? g_gone s then None   (* vsip_finalize of what is not initialized *)
           else Some ({| g_count := g_count s; g_once := g_once s; g_gone := S (g_gone s); g_buf := g_buf s;
                         g_own := g_own s; g_mpi := g_mpi s; g_spawned := g_spawned s; g_threads := g_threads s |}, t')
      else Some (s, t')
  | WUse => if usable c s t then Some (s, t') else None
  | WSpawn => Some ({| g_count := g_count s; g_once := g_once s; g_gone := g_gone s; g_buf := g_buf s;
                       g_own := g_own s; g_mpi := g_mpi s; g_spawned := true; g_threads := g_threads s |}, t')
  | WJoin => Some (s, t')
  end.

(** Thread [i] makes a step. *)
Definition step (c : config) (s : lib) (i : nat) : outcome :=
  match nth_error (g_threads s) i with
  | None => Blocked
  | Some t =>
      if negb (i =? 0) && negb (g_spawned s) then Blocked else
      match t_now t with
      | [] =>
          match t_next t with
          | [] => Blocked
          | o :: os => Next (set_thread s i {| t_count := t_count t; t_alloc := t_alloc t; t_comm := t_comm t;
                                               t_lost := t_lost t; t_now := code_of c o; t_next := os |})
          end
      | WJoin :: k =>
          if forallb idle (tl (g_threads s))
          then Next (set_thread s i (with_code t k)) else Blocked
      | m :: k =>
          match micro_step c s t m k with
          | None => Fail
          | Some (s', t') => Next (set_thread s' i t')
          end
      end
  end.

Definition start (c : config) (progs : list (list op)) : lib :=
  {| g_count := 0; g_once := 0; g_gone := 0; g_buf := Null; g_own := false;
     g_mpi := if c_app c then MpiUp else MpiNo; g_spawned := false;
     g_threads := map (fun p => {| t_count := 0; t_alloc := false; t_comm := false; t_lost := 0; t_now := []; t_next := p |}) progs |}.

(** All interleavings: the states after [k] steps. *)
Inductive reach (c : config) (progs : list (list op)) : nat -> lib -> Prop :=
| r_start : reach c progs 0 (start c progs)
| r_step k s i t : reach c progs k s -> step c s i = Next t -> reach c progs (S k) t.

(** * Specification *)

(** The operations of a thread that has [b] vsipl objects of its own
    throughout and [n] more at the beginning: it destroys only these and
    those it creates, uses the library only while it has one, and has
    destroyed them all at the end. *)
Fixpoint balanced (b n : nat) (p : list op) : bool :=
  match p with
  | [] => n =? 0
  | ONew :: p => balanced b (S n) p
  | ODelete :: p => match n with 0 => false | S m => balanced b m p end
  | OUse :: p => (0 <? b + n) && balanced b n p
  | OSpawn :: _ | OJoin :: _ => false
  end.

(** The main thread creates an object, starts the others, works, waits for
    them and destroys its object last. *)
Definition main_program (body : list op) : list op := ONew :: OSpawn :: body ++ [OJoin; ODelete].

(** Everything has been given back. *)
Definition clean (s : lib) : Prop :=
  g_count s = 0 /\ g_once s = 1 /\ g_gone s = 1 /\ g_buf s <> Live /\
  Forall (fun t => t_count t = 0 /\ t_alloc t = false /\ t_comm t = false /\ t_lost t = 0) (g_threads s).
