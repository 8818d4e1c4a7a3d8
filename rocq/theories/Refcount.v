(** Model of reference counting (src/ovxx/refcounted.hpp): threads holding
    refcounted_ptr objects, executed in any interleaving of the atomic
    accesses to the counts.
    Simplifications: sequentially consistent memory (the code uses relaxed
    increments and release/acquire decrements); fewer than 2^32 references
    to one object, so that count_ does not wrap; a destroyed object releases
    the references it holds as members; members are set by the constructor
    only; a thread hands another one a refcounted_ptr by moving it. *)
From Coq Require Import ZArith List Lia Bool Arith.
From Verif Require Import Base.
Import ListNotations.
Local Open Scope nat_scope.

(** refcounted<T>: count_ (60), whether the object still exists, and the
    objects its refcounted_ptr members point to. *)
Record obj := mkobj { cnt : Z; live : bool; kids : list nat }.

(** A refcounted_ptr of the thread: None = no such variable (not yet
    constructed, or destroyed), Some None = null. *)
Definition slot := option (option nat).

(** Atomic actions still to be done by a thread. *)
Inductive micro := Dec (a : nat)  (* decrement_count, the fetch_sub *)
                 | Del (a : nat). (* the delete after it *)
(** Where [from] is: a variable, or member [i] of object [a]. *)
Inductive loc := LSlot (j : nat) | LKid (a i : nat).
(** What remains after the decrement: [ptr_ = from.ptr_; increment] with
    (copy constructor, null allowed) or without a null test (operator=);
    [ptr_ = p; increment] (reset); [ptr_ = p] for null or a new object;
    constructing members. *)
Inductive final := FLoad (nullok : bool) (k : nat) (l : loc) | FSet (k a : nat) | FNull (k : nat) | FNew (k : nat)
                 | FKids (k : nat) (js : list nat).
Record thread := mkt { slots : list slot; pend : list micro; fin : option final }.
Record state := mk { heap : list obj; threads : list thread; freed : list nat }.

Definition obj_of (s : state) (a : nat) : option obj := nth_error (heap s) a.
(** Using a destroyed object is undefined behaviour. *)
Definition live_obj (s : state) (a : nat) : option obj :=
  o <- obj_of s a ;; if live o then Some o else None.
Definition slot_at (t : thread) (k : nat) : slot := nth k (slots t) None.
Definition set_obj (s : state) (a : nat) (o : obj) : state := mk (lset (heap s) a o) (threads s) (freed s).
Definition set_thread (s : state) (t : nat) (x : thread) : state := mk (heap s) (lset (threads s) t x) (freed s).

(** refcounted.hpp 28-38. *)
Definition increment (s : state) (a : nat) : option state :=
  o <- live_obj s a ;; Some (set_obj s a (mkobj (cnt o + 1) true (kids o))).
(** refcounted.hpp 39-55: one atomic action of a pending release.  The
    fetch_sub returning 1 leads to the delete. *)
Definition run_micro (s : state) (t : nat) (x : thread) (m : micro) (rest : list micro) : option state :=
  match m with
  | Dec a =>
      o <- live_obj s a ;;
      Some (set_thread (set_obj s a (mkobj (cnt o - 1) true (kids o))) t
             (mkt (slots x) (if Z.eqb (cnt o) 1 then Del a :: rest else rest) (fin x)))
  | Del a =>
      o <- live_obj s a ;;
      Some (mk (lset (heap s) a (mkobj (cnt o) false (kids o)))
               (lset (threads s) t (mkt (slots x) (map Dec (kids o) ++ rest) (fin x)))
               (a :: freed s))
  end.
(** Reading [from.ptr_]; a member of a destroyed object cannot be read. *)
Definition load (s : state) (x : thread) (l : loc) : option (option nat) :=
  match l with
  | LSlot j => slot_at x j
  | LKid a i => o <- live_obj s a ;; b <- nth_error (kids o) i ;; Some (Some b)
  end.
(** The rest of an operation, when nothing is left to release. *)
Definition run_final (s : state) (t : nat) (x : thread) (f : final) : option state :=
  let done s sl := Some (set_thread s t (mkt sl [] None)) in
  match f with
  | FLoad nullok k l =>                                   (* 70-71, 83-84 *)
      p <- load s x l ;;
      match p with
      | None => if nullok then done s (lset (slots x) k (Some None)) else None
      | Some a => s' <- increment s a ;; done s' (lset (slots x) k (Some (Some a)))
      end
  | FSet k a => s' <- increment s a ;; done s' (lset (slots x) k (Some (Some a)))   (* 92-94 *)
  | FNull k => done s (lset (slots x) k (Some None))
  | FNew k =>                                             (* 26: refcounted() : count_(1) *)
      done (mk (heap s ++ [mkobj 1 true []]) (threads s) (freed s)) (lset (slots x) k (Some (Some (length (heap s)))))
  | FKids k [] => done s (slots x)
  | FKids k (j :: js) =>                                  (* 68: member(p) increments *)
      match slot_at x j, slot_at x k with
      | Some (Some a), Some (Some b) =>
          s1 <- increment s a ;;
          o <- live_obj s1 b ;;
          Some (set_thread (set_obj s1 b (mkobj (cnt o) true (kids o ++ [a]))) t (mkt (slots x) [] (Some (FKids k js))))
      | _, _ => None
      end
  end.

(** What a program does with its refcounted_ptrs. *)
Inductive src := SSlot (j : nat) | SKid (j i : nat).  (* a variable; member i of the object j points to *)
Inductive op :=
| New (k : nat)                   (* refcounted_ptr k(new T, false) *)
| Members (k : nat) (js : list nat) (* T's constructor stores copies of js; right after New *)
| Copy (k : nat) (s : src)        (* refcounted_ptr k(s) *)
| Assign (k : nat) (s : src)      (* k = s *)
| Destroy (k : nat)               (* ~refcounted_ptr *)
| Reset (k j : nat)               (* k.reset(j.get(), true) *)
| ResetNull (k : nat)             (* k.reset(0) *)
| ResetNew (k : nat)              (* k.reset(new T) *)
| Send (k u j : nat).             (* variable k becomes variable j of thread u *)

Definition loc_of (x : thread) (c : src) : option loc :=
  match c with
  | SSlot j => Some (LSlot j)
  | SKid j i => match slot_at x j with Some (Some a) => Some (LKid a i) | _ => None end
  end.
(** The decrement of the old pointer; the variable is treated as null until
    it is set again (it is only accessible to its own thread). *)
Definition release (x : thread) (k : nat) : list micro :=
  match slot_at x k with Some (Some a) => [Dec a] | _ => [] end.

Definition start (s : state) (t : nat) (x : thread) (o : op) : option state :=
  match o with
  | New k => Some (set_thread s t (mkt (lset (slots x) k (Some None)) [] (Some (FNew k))))
  | Members k js => Some (set_thread s t (mkt (slots x) [] (Some (FKids k js))))
  | Copy k c => l <- loc_of x c ;; Some (set_thread s t (mkt (lset (slots x) k (Some None)) [] (Some (FLoad true k l))))
  | Assign k c =>                                          (* 77-87 *)
      l <- loc_of x c ;; p <- load s x l ;; q <- slot_at x k ;;
      if (match p, q with Some a, Some b => Nat.eqb a b | None, None => true | _, _ => false end)
      then Some s
      else Some (set_thread s t (mkt (lset (slots x) k (Some None)) (release x k) (Some (FLoad false k l))))
  | Destroy k => Some (set_thread s t (mkt (lset (slots x) k None) (release x k) None))     (* 74 *)
  | Reset k j =>                                           (* 89-95 *)
      match slot_at x j with
      | Some (Some a) => Some (set_thread s t (mkt (lset (slots x) k (Some None)) (release x k) (Some (FSet k a))))
      | _ => None
      end
  | ResetNull k => Some (set_thread s t (mkt (lset (slots x) k (Some None)) (release x k) (Some (FNull k))))
  | ResetNew k => Some (set_thread s t (mkt (lset (slots x) k (Some None)) (release x k) (Some (FNew k))))
  | Send k u j =>
      y <- nth_error (threads s) u ;;
      Some (set_thread (set_thread s t (mkt (lset (slots x) k None) (pend x) (fin x))) u
              (mkt (lset (slots y) j (slot_at x k)) (pend y) (fin y)))
  end.

(** What C++ and the class demand of the program.  Beyond variables being
    constructed exactly when used: no assignment of a null pointer to a
    non-null one, no assignment from a member of the object that the target
    itself points to, no reset to the own pointer. *)
Definition constructed (x : thread) (k : nat) : bool := match slot_at x k with Some _ => true | None => false end.
Definition nonnull (x : thread) (k : nat) : bool := match slot_at x k with Some (Some _) => true | _ => false end.
Definition free_slot (x : thread) (k : nat) : bool := Nat.ltb k (length (slots x)) && negb (constructed x k).
Definition src_ok (s : state) (x : thread) (c : src) : bool :=
  match c with
  | SSlot j => constructed x j
  | SKid j i => match slot_at x j with
                | Some (Some a) => match obj_of s a with Some o => Nat.ltb i (length (kids o)) | None => false end
                | _ => false end
  end.
Definition legal (s : state) (t : nat) (x : thread) (o : op) : bool :=
  match o with
  | New k => free_slot x k
  | Members k js => nonnull x k && forallb (fun j => nonnull x j && negb (Nat.eqb j k)) js &&
      (** the new object is still the constructor's own, and it is younger than its members *)
      match slot_at x k with
      | Some (Some b) => match obj_of s b with Some o => Z.eqb (cnt o) 1 && forallb (fun j => match slot_at x j with Some (Some a) => Nat.ltb a b | _ => false end) js | None => false end
      | _ => false end
  | Copy k c => free_slot x k && src_ok s x c
  | Assign k c => constructed x k && src_ok s x c &&
      match c with SSlot j => nonnull x j || negb (nonnull x k) | SKid j _ => negb (Nat.eqb j k) end
  | Destroy k | ResetNull k | ResetNew k => constructed x k
  | Reset k j => constructed x k && nonnull x j && negb (Nat.eqb j k)
  | Send k u j => constructed x k && negb (Nat.eqb u t) &&
      match nth_error (threads s) u with Some y => free_slot y j | None => false end
  end.

(** Thread [t] takes one step; if it is idle it starts [o], provided that is
    legal.  None: undefined behaviour. *)
Definition step (s : state) (t : nat) (o : op) : option state :=
  match nth_error (threads s) t with
  | None => Some s
  | Some x =>
      match pend x, fin x with
      | m :: rest, _ => run_micro s t x m rest
      | [], Some f => run_final s t x f
      | [], None => if legal s t x o then start s t x o else Some s
      end
  end.
Fixpoint run (s : state) (l : list (nat * op)) : option state :=
  match l with [] => Some s | (t, o) :: r => s' <- step s t o ;; run s' r end.
(** [n] threads with [w] variables each, nothing constructed. *)
Definition init (n w : nat) : state := mk [] (repeat (mkt (repeat None w) [] None) n) [].

(** * Specification *)

(** A variable of some thread points to [a]. *)
Definition held (s : state) (a : nat) : Prop :=
  exists t x k, nth_error (threads s) t = Some x /\ nth_error (slots x) k = Some (Some (Some a)).
(** A member of an existing object points to [a]. *)
Definition member (s : state) (a : nat) : Prop :=
  exists b o, nth_error (heap s) b = Some o /\ live o = true /\ In a (kids o).
Definition exists_ (s : state) (a : nat) : Prop := exists o, nth_error (heap s) a = Some o /\ live o = true.
Definition idle (s : state) : Prop := forall t x, nth_error (threads s) t = Some x -> pend x = [] /\ fin x = None.
(** Reachable from a variable through members. *)
Inductive reachable (s : state) : nat -> Prop :=
| R_held a : held s a -> reachable s a
| R_member a b o : reachable s b -> nth_error (heap s) b = Some o -> live o = true -> In a (kids o) -> reachable s a.
