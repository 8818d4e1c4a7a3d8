(** * The pool allocator over huge pages

    Model of src/ovxx/huge_page_allocator.cpp:69-206 (constructor, [allocate],
    [deallocate]); [open_huge_pages] is represented by the address it returns. *)

From Coq Require Import ZArith List Bool Lia.
Require Import Verif.Base.
Import ListNotations.
Local Open Scope Z_scope.

(** ** The pool *)

(** The words of the pool, by address.  Simplification: only 8-byte words at
    8-aligned addresses inside the pool may be accessed; any other access
    (null, outside the pool, misaligned) is undefined behaviour ([None]). *)
Definition words := Z -> Z.

Definition upd (m : words) (x v : Z) : words :=
  fun y => if y =? x then v else m y.

(** The object: its memory, [pool_], [size_], [free_], [total_avail_]
    (src/ovxx/huge_page_allocator.hpp:35-39). *)
Record pool := Pool
  { p_mem : words; p_base : Z; p_size : Z; p_free : Z; p_avail : Z }.

Definition in_pool (s : pool) (x : Z) : bool :=
  (p_base s <=? x) && (x + 8 <=? p_base s + p_size s) && (x mod 8 =? 0).

Definition rd (s : pool) (x : Z) : option Z :=
  if in_pool s x then Some (p_mem s x) else None.

Definition wr (s : pool) (x v : Z) : option pool :=
  if in_pool s x
  then Some (Pool (upd (p_mem s) x v) (p_base s) (p_size s) (p_free s) (p_avail s))
  else None.

Definition set_free (s : pool) (v : Z) : pool :=
  Pool (p_mem s) (p_base s) (p_size s) v (p_avail s).
Definition set_avail (s : pool) (v : Z) : pool :=
  Pool (p_mem s) (p_base s) (p_size s) (p_free s) v.

(** [pages * 0x1000000], computed in [int]; overflow is undefined
    (huge_page_allocator.cpp:71; also l. 51). *)
Definition pool_bytes (pages : Z) : option Z :=
  let b := pages * 16777216 in
  if (-2147483648 <=? b) && (b <=? 2147483647) then Some b else None.

(** The constructor (huge_page_allocator.cpp:69-77).  [addr] is what
    [open_huge_pages] returned, [m] the contents of the memory it mapped. *)
Definition pool_init (m : words) (addr pages : Z) : option pool :=
  size <- pool_bytes pages ;;
  let s := Pool m addr size addr size in
  s <- wr s addr 0 ;;
  wr s (addr + 8) size.

(** The rounding of a size (huge_page_allocator.cpp:81-87 and 131-136);
    [size_t] arithmetic wraps. *)
Definition round128 (size : Z) : Z :=
  let size := if size <? 16 then 16 else size in
  if size mod 128 =? 0 then size else u64 (size + (128 - size mod 128)).

(** The search for a block that is large enough
    (huge_page_allocator.cpp:89-98): the resulting [prev], [ptr], [avail].
    The list may be cyclic if it is damaged: running out of fuel is [None]. *)
Fixpoint find_fit (fuel : nat) (s : pool) (size prev ptr : Z) : option (Z * Z * Z) :=
  match fuel with
  | O => None
  | S fuel' =>
    if ptr =? 0 then Some (prev, 0, 0)
    else
      avail <- rd s (ptr + 8) ;;
      if avail <? size
      then next <- rd s ptr ;; find_fit fuel' s size ptr next
      else Some (prev, ptr, avail)
  end.

(** One more step than there are 128-byte units in the pool. *)
Definition pool_fuel (s : pool) : nat := S (S (Z.to_nat (p_size s / 128))).

(** What a call to [allocate] does: an address, or [std::bad_alloc]. *)
Inductive got := Got (p : Z) | Bad_alloc.

(** [allocate] (huge_page_allocator.cpp:79-127). *)
Definition allocate (s : pool) (size : Z) : option (pool * got) :=
  let size := round128 size in
  r <- find_fit (pool_fuel s) s size 0 (p_free s) ;;
  let '(prev, ptr, avail) := r in
  if ptr =? 0 then Some (s, Bad_alloc)
  else
    let s := set_avail s (u64 (p_avail s - size)) in
    next <- rd s ptr ;;
    if avail =? size
    then
      s <- (if prev =? 0 then Some (set_free s next) else wr s prev next) ;;
      Some (s, Got ptr)
    else
      s <- (if prev =? 0 then Some (set_free s (ptr + size))
            else wr s prev (ptr + size)) ;;
      next <- rd s ptr ;;
      s <- wr s (ptr + size) next ;;
      s <- wr s (ptr + size + 8) (u64 (avail - size)) ;;
      Some (s, Got ptr).

(** The search for the place of the returned block
    (huge_page_allocator.cpp:138-145). *)
Fixpoint find_place (fuel : nat) (s : pool) (rp prev ptr : Z) : option (Z * Z) :=
  match fuel with
  | O => None
  | S fuel' =>
    if (negb (ptr =? 0)) && (ptr <? rp)
    then next <- rd s ptr ;; find_place fuel' s rp ptr next
    else Some (prev, ptr)
  end.

(** [deallocate] (huge_page_allocator.cpp:129-206). *)
Definition deallocate (s : pool) (rp size : Z) : option pool :=
  let size := round128 size in
  r <- find_place (pool_fuel s) s rp 0 (p_free s) ;;
  let '(prev, ptr) := r in
  s <-
    (if ptr =? 0
     then
       s <- wr s (rp + 8) size ;;
       Some (set_free s rp)
     else if prev =? 0
     then
       assert (p_free s =? ptr) ;;
       assert (size <=? ptr - rp) ;;
       if size =? ptr - rp
       then
         next <- rd s ptr ;;
         s <- wr s rp next ;;
         psz <- rd s (ptr + 8) ;;
         s <- wr s (rp + 8) (u64 (size + psz)) ;;
         Some (set_free s rp)
       else
         s <- wr s rp ptr ;;
         s <- wr s (rp + 8) size ;;
         Some (set_free s rp)
     else
       assert (size <=? ptr - rp) ;;
       s <- (if size =? ptr - rp
             then
               next <- rd s ptr ;;
               s <- wr s rp next ;;
               psz <- rd s (ptr + 8) ;;
               wr s (rp + 8) (u64 (size + psz))
             else
               s <- wr s rp ptr ;;
               wr s (rp + 8) size) ;;
       prev_size <- rd s (prev + 8) ;;
       if prev_size =? rp - prev
       then
         next <- rd s rp ;;
         s <- wr s prev next ;;
         rsz <- rd s (rp + 8) ;;
         wr s (prev + 8) (u64 (size + rsz))
       else wr s prev rp) ;;
  Some (set_avail s (u64 (p_avail s + size))).

(** ** Specification: histories of a client

    The client holds the chunks it was given and has not returned: address
    and requested size of each. *)
Definition chunks := list (Z * Z).

(** The 128-byte units that make up [n] bytes (at least one). *)
Definition units (n : Z) : Z := Z.max 1 ((n + 127) / 128).

(** The bytes of a chunk. *)
Definition chunk_byte (c : Z * Z) (x : Z) : Prop :=
  fst c <= x < fst c + 128 * units (snd c).

Definition used (live : chunks) (x : Z) : Prop :=
  exists c, In c live /\ chunk_byte c x.

(** A byte of the pool that belongs to no chunk. *)
Definition unused (s : pool) (live : chunks) (x : Z) : Prop :=
  p_base s <= x < p_base s + p_size s /\ ~ used live x.

(** What the client does between two calls, and the calls; [None] is
    undefined behaviour (or a failed assertion), which ends the history. *)
Inductive event :=
| Alloc (n : Z)
| Free (p n : Z)
| Poke (x v : Z).     (* the client stores the word [v] at the address [x] *)

Definition chunk_eq_dec : forall c d : Z * Z, {c = d} + {c <> d}.
Proof. decide equality; apply Z.eq_dec. Defined.

Definition run_event (s : pool) (live : chunks) (e : event)
  : option (pool * chunks) :=
  match e with
  | Alloc n =>
    match allocate s n with
    | None => None
    | Some (s', Got p) => Some (s', (p, n) :: live)
    | Some (s', Bad_alloc) => Some (s', live)
    end
  | Free p n =>
    match deallocate s p n with
    | None => None
    | Some s' =>
      Some (s', remove chunk_eq_dec (p, n) live)
    end
  | Poke x v =>
    Some (Pool (upd (p_mem s) x v) (p_base s) (p_size s) (p_free s) (p_avail s), live)
  end.

(** A run of [k] unused bytes that starts at [x]. *)
Definition free_run (s : pool) (live : chunks) (x k : Z) : Prop :=
  forall y, x <= y < x + k -> unused s live y.

(** The two situations in which [deallocate] works as intended (the others
    are refuted): somewhere above the chunk there is unused memory, and the
    byte below it is in use (or outside the pool), or else the unused run
    that ends there is exactly as long as the chunk. *)
Definition good_free (s : pool) (live : chunks) (p n : Z) : Prop :=
  (exists x, p < x /\ unused s live x) /\
  (~ unused s live (p - 1) \/
   (free_run s live (p - 128 * units n) (128 * units n) /\
    ~ unused s live (p - 128 * units n - 1))).

(** What the client may do: ask for a size that can be rounded up, return a
    chunk it holds with the size it asked for, write into its chunks. *)
Definition legal (s : pool) (live : chunks) (e : event) : Prop :=
  match e with
  | Alloc n => 0 <= n <= W64 - 128
  | Free p n => In (p, n) live
  | Poke x v => used live x /\ x mod 8 = 0
  end.

(** Histories in which every event satisfies [ok]. *)
Inductive history (ok : pool -> chunks -> event -> Prop) (s0 : pool)
  : pool -> chunks -> Prop :=
| history_start : history ok s0 s0 []
| history_step s live e s' live' :
    history ok s0 s live ->
    ok s live e ->
    run_event s live e = Some (s', live') ->
    history ok s0 s' live'.

(** Legal events whose frees are [good_free]. *)
Definition careful (s : pool) (live : chunks) (e : event) : Prop :=
  legal s live e /\
  match e with Free p n => good_free s live p n | _ => True end.

(** The bytes the client holds. *)
Definition held (live : chunks) : Z :=
  fold_right (fun c a => 128 * units (snd c) + a) 0 live.

(** Two chunks have no byte in common. *)
Definition apart (c d : Z * Z) : Prop :=
  forall x, ~ (chunk_byte c x /\ chunk_byte d x).

(** A freshly constructed pool: [mmap] succeeded, at a page boundary, with
    room for [pages] pages of 16 MB; [m] is whatever the memory contains. *)
Definition fresh (s : pool) : Prop :=
  exists m addr pages,
    0 < addr /\ addr mod 4096 = 0 /\ 0 < pages /\
    addr + pages * 16777216 < W64 /\
    pool_init m addr pages = Some s.

(** Running a list of events (used to exhibit histories). *)
Fixpoint run_events (s : pool) (live : chunks) (es : list event)
  : option (pool * chunks) :=
  match es with
  | [] => Some (s, live)
  | e :: es' =>
    match run_event s live e with
    | None => None
    | Some (s', live') => run_events s' live' es'
    end
  end.
