(** * Aligned allocation and the owning array

    Model of src/ovxx/aligned_array.hpp:39-55 ([detail::alloc_align],
    [detail::free_align]) and of the ownership operations of [aligned_array]
    (the rest of the file up to [array_cast]). *)

From Coq Require Import ZArith List Bool Lia.
Require Import Verif.Base.
Import ListNotations.
Local Open Scope Z_scope.

(** ** Aligned allocation on top of [malloc] *)

(** The bytes [detail::alloc_align] asks from [malloc]: [size + align], on
    [size_t] (src/ovxx/aligned_array.hpp:44). *)
Definition request (align size : Z) : Z := u64 (size + align).

(** The bytes of an array of [n] elements of [sz] bytes, [size*sizeof(T)], on
    [size_t] (aligned_array.hpp:60-74, the argument of all three variants). *)
Definition array_bytes (sz n : Z) : Z := u64 (n * sz).

(** [((size_t)ptr + align) & ~(align-1)] (aligned_array.hpp:46-47); [ptr] is
    what [malloc] returned. *)
Definition aligned_ptr (align ptr : Z) : Z :=
  Z.land (u64 (ptr + align)) (W64 - 1 - u64 (align - 1)).

(** Where the original pointer is kept, [*((void** )ret - 1)]
    (aligned_array.hpp:48, read again by [free_align], l. 54). *)
Definition slot (align ptr : Z) : Z := aligned_ptr align ptr - 8.

(** ** The owning array: objects and the heap they share

    An object is its [data_] (0 for null) and its [size_]. *)
Definition obj := (Z * Z)%type.
Definition objs := nat -> option obj.

(** The heap: address and number of elements of every array allocated and not
    freed. *)
Definition heap := list (Z * Z).

Record arrays := Arrays { a_objs : objs; a_heap : heap }.

Definition oset (o : objs) (i : nat) (v : option obj) : objs :=
  fun j => if Nat.eqb j i then v else o j.

(** [free_align]: freeing null does nothing; freeing memory that is not
    allocated is undefined. *)
Definition free_align (h : heap) (p : Z) : option heap :=
  if p =? 0 then Some h
  else if existsb (fun c => fst c =? p) h
       then Some (filter (fun c => negb (fst c =? p)) h)
       else None.

(** [release] (aligned_array.hpp:142-148): the old [data_]; the object is left
    null and empty. *)
Definition release (s : arrays) (i : nat) : option (Z * arrays) :=
  match a_objs s i with
  | Some (p, n) => Some (p, Arrays (oset (a_objs s) i (Some (0, 0))) (a_heap s))
  | None => None
  end.

(** [reset] (aligned_array.hpp:149-157). *)
Definition reset (s : arrays) (i : nat) (p n : Z) : option arrays :=
  match a_objs s i with
  | Some (d, k) =>
    if p =? d then Some s
    else
      h <- free_align (a_heap s) d ;;
      Some (Arrays (oset (a_objs s) i (Some (p, n))) h)
  | None => None
  end.

Inductive aop :=
| Default (i : nat)             (* aligned_array() *)
| New (i : nat) (n p : Z)       (* aligned_array(n); the allocator returns p *)
| Copy (i j : nat)              (* aligned_array(aligned_array &) *)
| CopyRef (i j : nat)           (* aligned_array(aligned_array_ref), from j *)
| Assign (i j : nat)            (* i = j *)
| AssignRef (i j : nat)         (* i = aligned_array_ref, from j *)
| Destroy (i : nat).

(** The operations (aligned_array.hpp:99-139).  Constructors need an unused
    name, the others an object.  The conversion to [aligned_array_ref] reads
    the size, releases, and the reference is used at once. *)
Definition run_aop (s : arrays) (o : aop) : option arrays :=
  match o with
  | Default i => Some (Arrays (oset (a_objs s) i (Some (0, 0))) (a_heap s))
  | New i n p =>
    Some (Arrays (oset (a_objs s) i (Some (p, n)))
            (if p =? 0 then a_heap s else (p, n) :: a_heap s))
  | Copy i j =>
    match a_objs s j with
    | Some (p, n) =>
      let s := Arrays (oset (a_objs s) i (Some (p, n))) (a_heap s) in
      r <- release s j ;;
      Some (snd r)
    | None => None
    end
  | CopyRef i j =>
    match a_objs s j with
    | Some (_, n) =>
      r <- release s j ;;
      let '(p, s) := r in
      Some (Arrays (oset (a_objs s) i (Some (p, n))) (a_heap s))
    | None => None
    end
  | Assign i j =>
    match a_objs s j with
    | Some (_, n) =>
      r <- release s j ;;
      let '(p, s) := r in
      s <- reset s i p 0 ;;
      match a_objs s i with
      | Some (d, _) => Some (Arrays (oset (a_objs s) i (Some (d, n))) (a_heap s))
      | None => None
      end
    | None => None
    end
  | AssignRef i j =>
    match a_objs s j with
    | Some (_, n) =>
      r <- release s j ;;
      let '(p, s) := r in
      reset s i p n
    | None => None
    end
  | Destroy i =>
    match a_objs s i with
    | Some (d, _) =>
      h <- free_align (a_heap s) d ;;
      Some (Arrays (oset (a_objs s) i None) h)
    | None => None
    end
  end.

(** What a program may do: construct under an unused name, use objects that
    exist; the allocator returns memory that is not in use, and may return
    null only for an array of no elements. *)
Definition aop_legal (s : arrays) (o : aop) : Prop :=
  match o with
  | Default i => a_objs s i = None
  | New i n p =>
    a_objs s i = None /\ 0 <= n /\ (p = 0 -> n = 0) /\
    (p <> 0 -> ~ In p (map fst (a_heap s)))
  | Copy i j | CopyRef i j => a_objs s i = None /\ a_objs s j <> None
  | Assign i j | AssignRef i j => a_objs s i <> None /\ a_objs s j <> None
  | Destroy i => a_objs s i <> None
  end.

Definition no_arrays : arrays := Arrays (fun _ => None) [].

Inductive array_history : arrays -> Prop :=
| array_start : array_history no_arrays
| array_step s o s' :
    array_history s -> aop_legal s o -> run_aop s o = Some s' -> array_history s'.

(** Specification: every allocated array belongs to exactly one object, which
    knows its size, and every object that is not null owns an allocated
    array. *)
Definition owned_once (s : arrays) : Prop :=
  NoDup (map fst (a_heap s)) /\
  (forall p n, In (p, n) (a_heap s) ->
     p <> 0 /\ exists i, a_objs s i = Some (p, n) /\
     forall j m, a_objs s j = Some (p, m) -> j = i) /\
  (forall i p n, a_objs s i = Some (p, n) ->
     (p = 0 /\ n = 0) \/ In (p, n) (a_heap s)).
