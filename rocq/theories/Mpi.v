(** Model of the groups and communicators of the MPI binding:
    src/ovxx/mpi/group.hpp, group.cpp, communicator.hpp, communicator.cpp,
    datatype.hpp and the part of service.cpp that reads the default
    communicator.
    Processes are numbered; an MPI group is the list of its processes in
    rank order.  The MPI library itself is taken as documented (MPI 3.1,
    sections 5.9, 6.3, 6.4): the functions mpi_xxx below.  [None] is an
    MPI error, which the binding turns into an exception, or a failed
    assertion.
    Not modelled: error strings, threads inside MPI, the narrowing of ranks
    to int, point-to-point messages (they are in ParAssign.v). *)
From Coq Require Import List Arith ZArith Lia Bool Sorted.
From Verif Require Import Base.
Import ListNotations.

(** * The MPI library as documented *)

Definition group := list nat.
Definition memb (x : nat) (l : list nat) : bool := existsb (Nat.eqb x) l.
(** MPI_Group_rank: the position of a process; [None] is MPI_UNDEFINED. *)
Fixpoint pos (x : nat) (g : list nat) : option nat :=
  match g with
  | [] => None
  | y :: r => if x =? y then Some 0 else option_map S (pos x r)
  end.
Fixpoint omap {A B} (f : A -> option B) (l : list A) : option (list B) :=
  match l with
  | [] => Some []
  | x :: r => y <- f x ;; z <- omap f r ;; Some (y :: z)
  end.
Fixpoint distinct (l : list nat) : bool :=
  match l with [] => true | x :: r => negb (memb x r) && distinct r end.
(** MPI_Group_incl, MPI_Group_excl: the ranks must be valid and distinct. *)
Definition mpi_incl (g : group) (ranks : list nat) : option group :=
  assert (distinct ranks) ;; omap (fun k => nth_error g k) ranks.
Definition mpi_excl (g : group) (ranks : list nat) : option group :=
  assert (distinct ranks) ;; assert (forallb (fun k => k <? length g) ranks) ;;
  Some (filter (fun x => match pos x g with Some k => negb (memb k ranks) | None => false end) g).
(** MPI_Group_union, _intersection, _difference. *)
Definition mpi_union (a b : group) : group := a ++ filter (fun x => negb (memb x a)) b.
Definition mpi_inter (a b : group) : group := filter (fun x => memb x b) a.
Definition mpi_diff (a b : group) : group := filter (fun x => negb (memb x b)) a.
(** MPI_Group_translate_ranks; [undef] is the value of MPI_UNDEFINED. *)
Definition mpi_translate (undef : Z) (a : group) (ranks : list nat) (b : group) : option (list Z) :=
  omap (fun k => x <- nth_error a k ;;
                 Some (match pos x b with Some j => Z.of_nat j | None => undef end)) ranks.
(** MPI_Comm_split: the processes of one colour, by key, equal keys in the
    order of the old ranks. *)
Section Sort.
Variable key : nat -> Z.
Fixpoint insert_key (x : nat) (l : list nat) : list nat :=
  match l with
  | [] => [x]
  | y :: r => if (key x <=? key y)%Z then x :: l else y :: insert_key x r
  end.
Definition sort_key (l : list nat) : list nat := fold_right insert_key [] l.
End Sort.
Definition same_colour (a b : option nat) : bool :=
  match a, b with Some x, Some y => x =? y | _, _ => false end.
Definition mpi_split (g : group) (colour : nat -> option nat) (key : nat -> Z) (me : nat) : option group :=
  match colour me with
  | None => None                                    (* MPI_UNDEFINED: MPI_COMM_NULL *)
  | Some _ => Some (sort_key key (filter (fun x => same_colour (colour x) (colour me)) g))
  end.

(** * Groups *)

(** A Group object: group.hpp 67; [None] is an empty impl_. *)
Definition gobj := option group.

(** group.cpp 30-37: Group(MPI_Group): MPI_GROUP_EMPTY is not stored. *)
Definition wrap (g : group) : gobj := match g with [] => None | _ => Some g end.
(** group.hpp 33: operator MPI_Group. *)
Definition raw (o : gobj) : group := match o with Some g => g | None => [] end.
(** group.hpp 36-42, 44-50: rank() of process [me] ([None] is no_rank), size(). *)
Definition g_rank (me : nat) (o : gobj) : option nat :=
  match o with None => None | Some g => pos me g end.
Definition g_size (o : gobj) : nat := match o with None => 0 | Some g => length g end.

(** group.hpp 70-87: include; [ptr] says that the ranks are given by two
    pointers to int, for which there is a specialization. *)
Definition include (ptr : bool) (o : gobj) (ranks : list nat) : option gobj :=
  if negb ptr && (length ranks =? 0) then Some None
  else g <- mpi_incl (raw o) ranks ;; Some (wrap g).
(** group.hpp 89-106: exclude. *)
Definition exclude (ptr : bool) (o : gobj) (ranks : list nat) : option gobj :=
  if negb ptr && (length ranks =? 0) then Some None
  else g <- mpi_excl (raw o) ranks ;; Some (wrap g).
(** group.hpp 108-132: translate_ranks, the ints handed to the output
    iterator. *)
Definition translate (undef : Z) (ptr : bool) (o : gobj) (ranks : list nat) (o' : gobj) : option (list Z) :=
  if negb ptr && (length ranks =? 0) then Some []
  else mpi_translate undef (raw o) ranks (raw o').
(** An output iterator over index_type stores the int converted to an
    unsigned 64-bit number. *)
Definition to_index (z : Z) : Z := (z mod 2 ^ 64)%Z.
(** group.hpp 134-153: operators |, & and -. *)
Definition g_union (a b : gobj) : gobj := wrap (mpi_union (raw a) (raw b)).
Definition g_inter (a b : gobj) : gobj := wrap (mpi_inter (raw a) (raw b)).
Definition g_diff (a b : gobj) : gobj := wrap (mpi_diff (raw a) (raw b)).

(** * Communicators *)

(** communicator.hpp 115-116.  [c_impl]: the MPI communicator, a number
    that identifies it with the group of its processes; [None]: no
    communicator.  *)
Record cobj := C { c_impl : option (nat * group); c_pvec : list nat }.

(** communicator.hpp 44-57: rank(), size(); an error for MPI_COMM_NULL. *)
Definition c_rank (me : nat) (c : cobj) : option nat :=
  i <- c_impl c ;; pos me (snd i).
Definition c_size (c : cobj) : option nat :=
  i <- c_impl c ;; Some (length (snd i)).
(** communicator.hpp 41: operator bool. *)
Definition c_valid (c : cobj) : bool := match c_impl c with Some _ => true | None => false end.

(** communicator.cpp 28-31: Communicator(). *)
Definition c_default (world : nat * group) : cobj := C (Some world) [].
(** communicator.cpp 33-63: Communicator(MPI_Comm, kind); for comm_duplicate
    the new communicator has another number. *)
Inductive ckind := Duplicate | TakeOwnership | Attach.
Definition c_make (k : ckind) (newid : nat) (h : option (nat * group)) : cobj :=
  match h with
  | None => C None []
  | Some (id, g) =>
      let i := match k with Duplicate => (newid, g) | _ => (id, g) end in
      C (Some i) (seq 0 (length g))
  end.
(** communicator.cpp 65-79: Communicator(comm, subgroup) on process [me];
    MPI_Comm_create gives MPI_COMM_NULL to processes outside the group. *)
Definition c_sub (newid me : nat) (c : cobj) (g : gobj) : option cobj :=
  i <- c_impl c ;;
  assert (forallb (fun x => memb x (snd i)) (raw g)) ;;
  assert (memb me (snd i)) ;;
  Some (if memb me (raw g) then C (Some (newid, raw g)) (seq 0 (length (raw g))) else C None []).
(** communicator.hpp 73-79: split(color, key) on process [me]; [colour] and
    [key] are what the processes pass.  split(color) passes rank(). *)
Definition c_split (newid me : nat) (c : cobj) (colour : nat -> option nat) (key : nat -> Z) : option cobj :=
  i <- c_impl c ;;
  assert (memb me (snd i)) ;;
  Some (c_make TakeOwnership newid
          (match mpi_split (snd i) colour key me with None => None | Some g => Some (newid, g) end)).
Definition c_split1 (newid me : nat) (c : cobj) (colour : nat -> option nat) : option cobj :=
  c_split newid me c colour (fun p => match c_rank p c with Some k => Z.of_nat k | None => 0%Z end).
(** communicator.hpp 65-70: group(). *)
Definition c_group (c : cobj) : option gobj := i <- c_impl c ;; Some (wrap (snd i)).
(** communicator.hpp 119-127: operator==: MPI_IDENT, the same communicator. *)
Definition c_eq (a b : cobj) : option bool :=
  i <- c_impl a ;; j <- c_impl b ;; Some (fst i =? fst j).

(** service.cpp 96-114: num_processors(), local_processor(),
    local_processor_index() with [c] as the default communicator. *)
Definition num_processors (c : cobj) : option nat := c_size c.
Definition local_processor (me : nat) (c : cobj) : option nat := c_rank me c.
Definition local_processor_index (me : nat) (c : cobj) : option nat :=
  p <- local_processor me c ;; pos p (c_pvec c).

(** * Element types and reductions *)

Inductive ctype := Tchar | Tschar | Tuchar | Tshort | Tushort | Tint | Tuint | Tlong | Tulong
  | Tfloat | Tdouble | Tldouble | Tbool | Tcomplex (t : ctype) | Tindex (d : nat).
Inductive mtype := Mchar | Mshort | Mint | Mlong | Muchar | Mushort | Munsigned | Mulong
  | Mfloat | Mdouble | Mldouble | Mbyte | Mcontig (n : nat) (t : mtype).
(** datatype.hpp 24-106; sizeof(bool) is 1. *)
Fixpoint datatype (t : ctype) : mtype :=
  match t with
  | Tchar => Mchar | Tshort => Mshort | Tint => Mint | Tlong => Mlong | Tschar => Mchar
  | Tuchar => Muchar | Tushort => Mushort | Tuint => Munsigned | Tulong => Mulong
  | Tfloat => Mfloat | Tdouble => Mdouble | Tldouble => Mldouble
  | Tindex d => Mcontig d Mulong
  | Tcomplex t => Mcontig 2 (datatype t)
  | Tbool => Mbyte
  end.

Inductive mop := LAND | BAND | LOR | BOR | SUM | MIN | MAX.
Inductive reduction := Rall_true | Rall_true_bool | Rany_true | Rany_true_bool | Rsum | Rmin | Rmax | Rother.
(** communicator.hpp 186-212: allreduce, the operation chosen. *)
Definition op_of (r : reduction) : option mop :=
  match r with
  | Rall_true => Some LAND | Rall_true_bool => Some BAND | Rany_true => Some LOR | Rany_true_bool => Some BOR
  | Rsum => Some SUM | Rmin => Some MIN | Rmax => Some MAX | Rother => None
  end.
(** MPI 3.1, 5.9.2: which predefined operations apply to which types. *)
Definition c_integer (m : mtype) : bool :=
  match m with Mshort | Mint | Mlong | Muchar | Mushort | Munsigned | Mulong => true | _ => false end.
Definition c_floating (m : mtype) : bool :=
  match m with Mfloat | Mdouble | Mldouble => true | _ => false end.
Definition op_applies (o : mop) (m : mtype) : bool :=
  match o with
  | SUM | MIN | MAX => c_integer m || c_floating m
  | LAND | LOR => c_integer m
  | BAND | BOR => c_integer m || match m with Mbyte => true | _ => false end
  end.
(** Their meaning on whole numbers (a bool is 0 or 1).  Exact: sums outside
    the range of the type are not modelled. *)
Definition truth (b : bool) : Z := if b then 1%Z else 0%Z.
Definition reduce_with (o : mop) (v : Z) (vs : list Z) : Z :=
  match o with
  | SUM => fold_left Z.add vs v
  | MIN => fold_left Z.min vs v
  | MAX => fold_left Z.max vs v
  | LAND => truth (forallb (fun x => negb (x =? 0)%Z) (v :: vs))
  | LOR => truth (existsb (fun x => negb (x =? 0)%Z) (v :: vs))
  | BAND => fold_left Z.land vs v
  | BOR => fold_left Z.lor vs v
  end.
(** communicator.hpp 186-212: what every process gets when the processes
    pass v :: vs (in rank order). *)
Definition allreduce (t : ctype) (r : reduction) (v : Z) (vs : list Z) : option Z :=
  o <- op_of r ;;
  assert (op_applies o (datatype t)) ;;
  Some (reduce_with o v vs).

(** ** First use of a derived type by several threads *)

(** datatype.hpp 46-58, 66-78, 85-103: [first] and [datatype] are static
    variables, initialized before any thread runs; a call tests [first],
    clears it, builds the type, returns the variable.  A thread is where it
    is in its call; [Got b] is the value it returned: whether it was the
    type or the uninitialized variable. *)
Inductive thr := Start | Cleared | Built | Skip | Got (b : bool).
Record tstate := TS { t_first : bool; t_ready : bool; t_thr : list thr }.
Definition set_thr (s : tstate) (i : nat) (x : thr) : list thr := lset (t_thr s) i x.
Definition tstep (s : tstate) (i : nat) : tstate :=
  match nth_error (t_thr s) i with
  | Some Start => if t_first s then TS false (t_ready s) (set_thr s i Cleared)
                  else TS false (t_ready s) (set_thr s i Skip)
  | Some Cleared => TS (t_first s) true (set_thr s i Built)
  | Some Built | Some Skip => TS (t_first s) (t_ready s) (set_thr s i (Got (t_ready s)))
  | _ => s
  end.
Definition truns (s : tstate) (sched : list nat) : tstate := fold_left tstep sched s.

(** * Who frees an MPI communicator *)

(** The Communicator objects of a process: each is a std::shared_ptr
    (communicator.hpp 115) to a control block.  A control block has the MPI
    handle and says whether its deleter is comm_free (communicator.cpp
    15-26).  [l_freed] are the handles given to MPI_Comm_free, in order. *)
Record blk := Blk { b_handle : nat; b_owned : bool }.
Record life := L { l_blocks : list blk; l_slots : list (option nat); l_freed : list nat;
                   l_finalized : bool; l_next : nat }.
Definition life0 : life := L [] [] [] false 0.

(** The last shared_ptr to block [b] is gone: its deleter runs. *)
Definition deleter (s : life) (b : nat) : life :=
  match nth_error (l_blocks s) b with
  | Some k => if b_owned k && negb (l_finalized s)
              then L (l_blocks s) (l_slots s) (l_freed s ++ [b_handle k]) (l_finalized s) (l_next s)
              else s
  | None => s
  end.
Definition used (s : life) (b : nat) : bool :=
  existsb (fun x => match x with Some c => c =? b | None => false end) (l_slots s).
Definition set_slot (s : life) (i : nat) (x : option nat) : life :=
  L (l_blocks s) (lset (l_slots s) i x) (l_freed s) (l_finalized s) (l_next s).
(** A shared_ptr is overwritten or destroyed. *)
Definition release (s : life) (i : nat) (x : option nat) : life :=
  match nth_error (l_slots s) i with
  | Some old =>
      let s' := set_slot s i x in
      match old with
      | Some b => if used s' b then s' else deleter s' b
      | None => s'
      end
  | None => s
  end.
Inductive lop :=
| LMake (k : ckind) (h : nat)   (* Communicator(h, kind); TakeOwnership of a handle the program got from MPI *)
| LNew                          (* Communicator(comm, group), split: a communicator MPI has just made *)
| LNull                         (* the same on a process that gets MPI_COMM_NULL *)
| LCopy (i : nat)               (* Communicator(other) *)
| LAssign (i j : nat)           (* object i = object j *)
| LDestroy (i : nat)            (* ~Communicator *)
| LFinalize.                    (* MPI_Finalize *)
Definition push (s : life) (h : nat) (owned : bool) (next : nat) : life :=
  L (l_blocks s ++ [Blk h owned]) (l_slots s ++ [Some (length (l_blocks s))]) (l_freed s) (l_finalized s) next.
(** Handles made by MPI are numbered from 0; an attached handle [h] is
    one that somebody else owns: it gets no number of its own, and is kept
    apart as a block that is not owned.  communicator.cpp 28-79. *)
Definition lstep (s : life) (o : lop) : life :=
  match o with
  | LMake Duplicate _ | LMake TakeOwnership _ | LNew => push s (l_next s) true (S (l_next s))
  | LMake Attach h => push s h false (l_next s)
  | LNull => L (l_blocks s) (l_slots s ++ [None]) (l_freed s) (l_finalized s) (l_next s)
  | LCopy i => match nth_error (l_slots s) i with
               | Some x => L (l_blocks s) (l_slots s ++ [x]) (l_freed s) (l_finalized s) (l_next s)
               | None => s
               end
  | LAssign i j => match nth_error (l_slots s) j with
                   | Some x => release s i x
                   | None => s
                   end
  | LDestroy i => release s i None
  | LFinalize => L (l_blocks s) (l_slots s) (l_freed s) true (l_next s)
  end.
Definition lruns (ops : list lop) : life := fold_left lstep ops life0.

(** * Specification *)

(** The groups a program can make of [n] processes. *)
Inductive made (n : nat) : gobj -> Prop :=
| md_empty : made n None
| md_world : made n (wrap (seq 0 n))
| md_incl p o r o' : made n o -> include p o r = Some o' -> made n o'
| md_excl p o r o' : made n o -> exclude p o r = Some o' -> made n o'
| md_union a b : made n a -> made n b -> made n (g_union a b)
| md_inter a b : made n a -> made n b -> made n (g_inter a b)
| md_diff a b : made n a -> made n b -> made n (g_diff a b).

(** Process [p] is in the group. *)
Definition member (p : nat) (o : gobj) : Prop := exists k, g_rank p o = Some k.
(** [p] comes before [q]. *)
Definition before (o : gobj) (p q : nat) : Prop :=
  exists i j, g_rank p o = Some i /\ g_rank q o = Some j /\ i < j.
Definition c_before (c : cobj) (p q : nat) : Prop :=
  exists i j, c_rank p c = Some i /\ c_rank q c = Some j /\ i < j.

(** The communicators a process can make without the default constructor;
    [world] are the processes. *)
Inductive cmade (world : group) : cobj -> Prop :=
| cm_world k i id : cmade world (c_make k i (Some (id, world)))
| cm_null k i : cmade world (c_make k i None)
| cm_dup i c h : cmade world c -> c_impl c = Some h -> cmade world (c_make Duplicate i (Some h))
| cm_sub i me c g c' n : cmade world c -> made n g -> c_sub i me c g = Some c' -> cmade world c'
| cm_split i me c col key c' : cmade world c -> c_split i me c col key = Some c' -> cmade world c'.

Definition count (x : nat) (l : list nat) : nat := count_occ Nat.eq_dec l x.
(** Some object of the program uses the communicator [h] it owns. *)
Definition in_use (s : life) (h : nat) : Prop :=
  exists i b, nth_error (l_slots s) i = Some (Some b) /\ nth_error (l_blocks s) b = Some (Blk h true).

(** How many communicators the library owns after the operations: those it
    makes and those whose ownership it takes. *)
Definition owned_made (ops : list lop) : nat :=
  length (filter (fun o => match o with LMake Duplicate _ | LMake TakeOwnership _ | LNew => true | _ => false end) ops).

(** Sizes in bytes (64-bit Linux), of the C++ types and of the MPI types. *)
Fixpoint csize (t : ctype) : nat :=
  match t with
  | Tchar | Tschar | Tuchar | Tbool => 1 | Tshort | Tushort => 2 | Tint | Tuint | Tfloat => 4
  | Tlong | Tulong | Tdouble => 8 | Tldouble => 16
  | Tcomplex t => csize t + csize t
  | Tindex d => d * 8
  end.
Fixpoint msize (m : mtype) : nat :=
  match m with
  | Mchar | Muchar | Mbyte => 1 | Mshort | Mushort => 2 | Mint | Munsigned | Mfloat => 4
  | Mlong | Mulong | Mdouble => 8 | Mldouble => 16
  | Mcontig n t => n * msize t
  end.

(** The C integer types of the MPI standard. *)
Definition is_integer (t : ctype) : Prop :=
  In t [Tuchar; Tshort; Tushort; Tint; Tuint; Tlong; Tulong].
