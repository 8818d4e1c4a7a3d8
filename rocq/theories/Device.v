(** Blocks whose data live in host memory and on an OpenCL device: the
    storage manager in a configuration with OVXX_HAVE_OPENCL keeps two
    copies of the data and a validity flag for each.

    Sources: ovxx/storage/manager.hpp (the OVXX_HAVE_OPENCL parts),
    ovxx/storage/host.hpp, ovxx/storage/storage.hpp,
    ovxx/opencl/storage.hpp, ovxx/opencl/dda.hpp (direct accessor),
    ovxx/storage/block.hpp, ovxx/strided.hpp 316-345. *)
From Coq Require Import List Bool Arith.
From Verif Require Import Base.
Import ListNotations.

Section Device.
Context {V : Type}.

(** An element; [None] is an indeterminate value (memory not written
    since it was allocated). *)
Definition cell := option V.
Definition content := nat -> cell.
Definition blank : content := fun _ => None.
(** Overwriting elements below [n]. *)
Definition over (n : nat) (new old : content) : content :=
  fun i => if i <? n then new i else old i.
Definition set1 (f : content) (i : nat) (v : V) : content :=
  fun j => if j =? i then Some v else f j.

(** ** The storage manager (manager.hpp 24-380).  User arrays are
    numbered; [bound] is the user array the host storage uses directly
    (host.hpp: [own_data_] false; manager.hpp: [use_user_storage_]);
    otherwise [own] is its own memory, when allocated.  Simplified: that
    a user array can be used directly is a property [compat] of the
    array (its format, storage/traits.hpp [is_compatible]); the
    conversion between formats is that of the model of admit and release
    in Storage.v.  OpenCL calls are taken to succeed. *)
Record mgr := mk {
  umem : nat -> content;        (* the user's arrays *)
  usr : option nat;             (* user_storage_ *)
  bound : option nat;
  own : option content;
  size : nat;
  hvalid : bool;                (* host_storage_.valid_ *)
  dev : option content;         (* opencl_storage_.data_ *)
  dvalid : bool;                (* opencl_storage_.valid_ *)
  adm : bool                    (* admitted_ *)
}.

Definition set_umem (s : mgr) (id : nat) (f : content) : mgr :=
  mk (fun k => if k =? id then f else umem s k)
     (usr s) (bound s) (own s) (size s) (hvalid s) (dev s) (dvalid s) (adm s).
Definition set_own (s : mgr) (f : option content) : mgr :=
  mk (umem s) (usr s) (bound s) f (size s) (hvalid s) (dev s) (dvalid s) (adm s).
Definition set_hvalid (s : mgr) (b : bool) : mgr :=
  mk (umem s) (usr s) (bound s) (own s) (size s) b (dev s) (dvalid s) (adm s).
Definition set_dev (s : mgr) (f : option content) : mgr :=
  mk (umem s) (usr s) (bound s) (own s) (size s) (hvalid s) f (dvalid s) (adm s).
Definition set_dvalid (s : mgr) (b : bool) : mgr :=
  mk (umem s) (usr s) (bound s) (own s) (size s) (hvalid s) (dev s) b (adm s).
Definition set_adm (s : mgr) (b : bool) : mgr :=
  mk (umem s) (usr s) (bound s) (own s) (size s) (hvalid s) (dev s) (dvalid s) b.

(** Constructors (manager.hpp 46-64, 66-77): the validity flags of both
    storages start true (storage.hpp 29, opencl/storage.hpp 60); the
    device storage of a block with user storage is allocated at once. *)
Definition make_plain (u : nat -> content) (n : nat) (alloc : bool) : mgr :=
  mk u None None (if alloc then Some blank else None) n true None true true.
Definition make_user (compat : nat -> bool) (u : nat -> content) (n id : nat) : mgr :=
  mk u (Some id) (if compat id then Some id else None)
     (if compat id then None else Some blank) n true (Some blank) true false.

(** The host memory ([ptr()], [get], [put] of storage.hpp 41-50); a null
    pointer is not dereferenced. *)
Definition hostmem (s : mgr) : option content :=
  match bound s with Some id => Some (umem s id) | None => own s end.
Definition set_host (s : mgr) (f : content) : mgr :=
  match bound s with Some id => set_umem s id f | None => set_own s (Some f) end.

(** host_storage::allocate (host.hpp 61-68). *)
Definition host_alloc (s : mgr) : mgr :=
  match bound s, own s with
  | None, None => set_own s (Some blank)
  | _, _ => s
  end.
(** opencl::storage::allocate (opencl/storage.hpp 63-67). *)
Definition dev_alloc (s : mgr) : mgr :=
  match dev s with None => set_dev s (Some blank) | Some _ => s end.

(** [sync(0)] (manager.hpp 323-335). *)
Definition sync_host (s : mgr) : option mgr :=
  let s := host_alloc s in
  if hvalid s then Some s
  else
    d <- dev s ;;
    h <- hostmem s ;;
    Some (set_hvalid (set_host s (over (size s) d h)) true).
(** [sync(1)] (336-348). *)
Definition sync_dev (s : mgr) : option mgr :=
  let s := dev_alloc s in
  if dvalid s then Some s
  else
    d <- dev s ;;
    h <- hostmem s ;;
    Some (set_dvalid (set_dev s (Some (over (size s) h d))) true).

(** [get], [put], [at] (295-315): [at] marks nothing invalid. *)
Definition get (s : mgr) (i : nat) : option (cell * mgr) :=
  s <- sync_host s ;;
  h <- hostmem s ;;
  Some (h i, s).
Definition put (s : mgr) (i : nat) (v : V) : option mgr :=
  s <- sync_host s ;;
  h <- hostmem s ;;
  Some (set_dvalid (set_host s (set1 h i v)) false).
Definition at_set (s : mgr) (i : nat) (v : V) : option mgr :=
  s <- sync_host s ;;
  h <- hostmem s ;;
  Some (set_host s (set1 h i v)).

(** [ptr()] (247-257) and what is done through the pointer: the elements
    are changed by [f]. *)
Definition host_access (s : mgr) (f : content -> content) : option mgr :=
  s <- sync_host s ;;
  h <- hostmem s ;;
  Some (set_dvalid (set_host s (over (size s) (f h) h)) false).
(** The pointer used again later. *)
Definition host_again (s : mgr) (f : content -> content) : option mgr :=
  h <- hostmem s ;;
  Some (set_host s (over (size s) (f h) h)).
(** [ptr() const] (265-273). *)
Definition host_view (s : mgr) : option (content * mgr) :=
  s <- sync_host s ;;
  h <- hostmem s ;;
  Some (h, s).

(** [buffer()] (281-292), and a kernel run on the buffer; the direct
    accessor of opencl::Data calls it at every [ptr()] and its [sync_in]
    and [sync_out] do nothing (opencl/dda.hpp 57-77). *)
Definition dev_access (s : mgr) (g : content -> content) : option mgr :=
  s <- sync_dev s ;;
  d <- dev s ;;
  Some (set_dev (set_hvalid s false) (Some (over (size s) (g d) d))).
(** A kernel run on a buffer obtained before. *)
Definition dev_again (s : mgr) (g : content -> content) : option mgr :=
  d <- dev s ;;
  Some (set_dev s (Some (over (size s) (g d) d))).

(** [admit], [release] (207-221): neither looks at the device. *)
Definition admit (s : mgr) (update : bool) : option mgr :=
  if negb (adm s) && (match bound s with None => true | Some _ => false end) && update then
    id <- usr s ;;
    h <- hostmem s ;;
    Some (set_adm (set_host s (over (size s) (umem s id) h)) true)
  else Some (set_adm s true).
Definition release (s : mgr) (update : bool) : option mgr :=
  if negb (adm s) then Some s
  else if (match bound s with None => true | Some _ => false end) && update then
    id <- usr s ;;
    h <- hostmem s ;;
    Some (set_adm (set_umem s id (over (size s) h (umem s id))) false)
  else Some (set_adm s false).

(** [rebind] (150-161) with host_storage::resize (host.hpp 75-98) and
    opencl::storage::resize (opencl/storage.hpp 69-75). *)
Definition dev_resize (s : mgr) (n : nat) : option content :=
  if size s =? n then dev s else Some blank.
Definition rebind (compat : nat -> bool) (s : mgr) (id n : nat) : option mgr :=
  assert negb (adm s) ;;
  let d := dev_resize s n in
  if compat id then
    Some (mk (umem s) (Some id) (Some id) None n (hvalid s) d (dvalid s) (adm s))
  else
    match bound s with
    | None =>
        let o := if size s =? n then own s else Some blank in
        Some (mk (umem s) (Some id) None o n (hvalid s) d (dvalid s) (adm s))
    | Some _ =>
        Some (mk (umem s) (Some id) None (Some blank) n (hvalid s) d (dvalid s) (adm s))
    end.

(** ** Programs. *)
Inductive op :=
| Get (i : nat)                      (* block.get(i) *)
| Put (i : nat) (v : V)              (* block.put(i, v) *)
| Set_ (i : nat) (v : V)             (* view(i) = v, through block.ref(i) *)
| Look (i : nat)                     (* element i through a const pointer *)
| Host (f : content -> content)      (* through a pointer to host memory *)
| Host2 (f : content -> content)     (* through the same pointer, later *)
| Kernel (g : content -> content)    (* through a device buffer *)
| Kernel2 (g : content -> content)   (* through the same buffer, later *)
| Admit (u : bool)
| Release (u : bool)
| Rebind (id n : nat)
| User_get (id i : nat)              (* the user reads their array *)
| User_put (id i : nat) (v : V).     (* the user writes their array *)

Definition exec (compat : nat -> bool) (s : mgr) (o : op) : option (mgr * option cell) :=
  match o with
  | Get i => p <- get s i ;; Some (snd p, Some (fst p))
  | Put i v => s' <- put s i v ;; Some (s', None)
  | Set_ i v => s' <- at_set s i v ;; Some (s', None)
  | Look i => p <- host_view s ;; Some (snd p, Some (fst p i))
  | Host f => s' <- host_access s f ;; Some (s', None)
  | Host2 f => s' <- host_again s f ;; Some (s', None)
  | Kernel g => s' <- dev_access s g ;; Some (s', None)
  | Kernel2 g => s' <- dev_again s g ;; Some (s', None)
  | Admit u => s' <- admit s u ;; Some (s', None)
  | Release u => s' <- release s u ;; Some (s', None)
  | Rebind id n => s' <- rebind compat s id n ;; Some (s', None)
  | User_get id i => Some (s, Some (umem s id i))
  | User_put id i v => Some (set_umem s id (set1 (umem s id) i v), None)
  end.

Fixpoint run (compat : nat -> bool) (s : mgr) (l : list op) : option (list cell) :=
  match l with
  | [] => Some []
  | o :: r =>
      p <- exec compat s o ;;
      q <- run compat (fst p) r ;;
      Some (match snd p with Some c => c :: q | None => q end)
  end.

(** ** Specification: there is one copy of the data. *)
Record ablock := mka {
  a_umem : nat -> content;      (* the user's arrays *)
  a_usr : option nat;           (* the array given to the block *)
  a_shared : bool;              (* it holds the block's elements itself *)
  a_own : content;              (* otherwise these are the elements *)
  a_n : nat;
  a_adm : bool
}.
Definition data (a : ablock) : content :=
  match a_usr a with
  | Some id => if a_shared a then a_umem a id else a_own a
  | None => a_own a
  end.
Definition with_umem (a : ablock) (id : nat) (f : content) : ablock :=
  mka (fun k => if k =? id then f else a_umem a k)
      (a_usr a) (a_shared a) (a_own a) (a_n a) (a_adm a).
Definition with_own (a : ablock) (f : content) : ablock :=
  mka (a_umem a) (a_usr a) (a_shared a) f (a_n a) (a_adm a).
Definition with_adm (a : ablock) (b : bool) : ablock :=
  mka (a_umem a) (a_usr a) (a_shared a) (a_own a) (a_n a) b.
Definition with_data (a : ablock) (f : content) : ablock :=
  match a_usr a with
  | Some id => if a_shared a then with_umem a id f else with_own a f
  | None => with_own a f
  end.

(** What an operation does to the one copy, and what it shows.  An
    access of the block needs the block to be admitted, access to the
    user's array needs it not to be in the block's hands, [rebind] a
    released block.  After [admit(false)] and [rebind] the elements of a
    block that does not use the user's array itself are
    indeterminate. *)
Definition accessible (a : ablock) (id : nat) : bool :=
  negb (a_adm a) ||
  (match a_usr a with Some k => negb (k =? id) | None => true end).
Definition spec (compat : nat -> bool) (a : ablock) (o : op) : option (ablock * option cell) :=
  match o with
  | Get i | Look i =>
      assert a_adm a && (i <? a_n a) ;; Some (a, Some (data a i))
  | Put i v | Set_ i v =>
      assert a_adm a && (i <? a_n a) ;; Some (with_data a (set1 (data a) i v), None)
  | Host f | Host2 f | Kernel f | Kernel2 f =>
      assert a_adm a ;; Some (with_data a (over (a_n a) (f (data a)) (data a)), None)
  | Admit u =>
      if a_adm a then Some (a, None)
      else
        id <- a_usr a ;;
        Some (with_adm (if a_shared a then a
                        else with_own a (if u then over (a_n a) (a_umem a id) blank else blank)) true, None)
  | Release u =>
      id <- a_usr a ;;
      if a_adm a then
        Some (with_adm (if a_shared a then a
                        else if u then with_umem a id (over (a_n a) (a_own a) (a_umem a id))
                        else a) false, None)
      else Some (a, None)
  | Rebind id n =>
      assert negb (a_adm a) ;;
      Some (mka (a_umem a) (Some id) (compat id) blank n false, None)
  | User_get id i =>
      assert accessible a id ;; Some (a, Some (a_umem a id i))
  | User_put id i v =>
      assert accessible a id ;; Some (with_umem a id (set1 (a_umem a id) i v), None)
  end.
Fixpoint spec_run (compat : nat -> bool) (a : ablock) (l : list op) : option (list cell) :=
  match l with
  | [] => Some []
  | o :: r =>
      p <- spec compat a o ;;
      q <- spec_run compat (fst p) r ;;
      Some (match snd p with Some c => c :: q | None => q end)
  end.

Definition new_plain (u : nat -> content) (n : nat) : ablock :=
  mka u None false blank n true.
Definition new_user (compat : nat -> bool) (u : nat -> content) (n id : nat) : ablock :=
  mka u (Some id) (compat id) blank n false.

(** A value shown is the right one wherever the right one is
    determined. *)
Definition agrees (c impl : cell) : Prop := forall v, c = Some v -> impl = Some v.

(** Host code and kernels depend on element values only: determined
    results do not depend on indeterminate elements. *)
Definition sensible (g : content -> content) : Prop :=
  forall n f f', (forall i, i < n -> agrees (f i) (f' i)) ->
    forall i, i < n -> agrees (g f i) (g f' i).
Definition op_sensible (o : op) : Prop :=
  match o with
  | Host f | Host2 f | Kernel f | Kernel2 f => sensible f
  | _ => True
  end.

(** ** Care needed by the implementation.  [Uptodate]: nothing was
    written on the host since the last device access; [Behind]: the host
    was written by [put] or through a pointer since then; [Unaware]: it
    was written only in ways that the manager does not notice (element
    references, admit, rebind).  [on_host]: the host was accessed since
    the last device access. *)
Inductive device_state := Uptodate | Behind | Unaware.
Record care := { device : device_state; on_host : bool }.
Definition unnoticed (d : device_state) : device_state :=
  match d with Behind => Behind | _ => Unaware end.
Definition careful1 (c : care) (o : op) : Prop :=
  match o with
  | Kernel _ => device c <> Unaware
  | Kernel2 _ => on_host c = false
  | Host2 _ => device c = Behind
  | Release _ => on_host c = true
  | _ => True
  end.
Definition next (c : care) (o : op) : care :=
  match o with
  | Get _ | Look _ => {| device := device c; on_host := true |}
  | Put _ _ | Host _ | Host2 _ => {| device := Behind; on_host := true |}
  | Set_ _ _ => {| device := unnoticed (device c); on_host := true |}
  | Kernel _ | Kernel2 _ => {| device := Uptodate; on_host := false |}
  | Admit _ | Rebind _ _ => {| device := unnoticed (device c); on_host := on_host c |}
  | Release _ | User_get _ _ | User_put _ _ _ => c
  end.
Fixpoint careful (c : care) (l : list op) : Prop :=
  match l with
  | [] => True
  | o :: r => careful1 c o /\ careful (next c o) r
  end.
Definition plain_care : care := {| device := Uptodate; on_host := true |}.
Definition user_care : care := {| device := Unaware; on_host := true |}.

(** Programs that never use the device, nor keep pointers. *)
Definition host_only (o : op) : Prop :=
  match o with Kernel _ | Kernel2 _ | Host2 _ => False | _ => True end.

End Device.
Arguments op : clear implicits.
Arguments mgr : clear implicits.
Arguments ablock : clear implicits.
