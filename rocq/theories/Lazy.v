(** Results returned by value: the view returned by a by-value Fft or
    Fftm object is an expression that is evaluated when it is first
    read, and remembers its values.  The model covers expressions built
    from views of memory, scalars, elementwise operations, views of
    expressions and such delayed operations, nested in any way.

    Sources: ovxx/expr/unary.hpp, binary.hpp, ternary.hpp, evaluate.hpp,
    traversal.hpp, vmmul.hpp, ovxx/assign/loop_fusion.hpp,
    ovxx/signal/fft/functor.hpp, ovxx/signal/fft.hpp. *)
From Coq Require Import ZArith List Bool Arith.
From Verif Require Import Base.
Import ListNotations.

Section Lazy.
Context {I T : Type}.

(** ** Expressions.  Elements of a block are numbered by indices [I] (of
    one, two or three coordinates); memory is addressed by [Z].
    - [Leaf at_]: a view of memory, element [i] at address [at_ i]
      (Strided, and Subset, Transposed, ... of Strided);
    - [Scal c]: ovxx/expr/scalar.hpp;
    - [Un], [Bin], [Ter]: the elementwise nodes (unary.hpp 30-76,
      binary.hpp 30-128, ternary.hpp 40-170).  [Vmmul] (vmmul.hpp) is
      [Bin mult (View _ coordinate v) m];
    - [View g e]: Subset, Transposed, Permuted, Sliced, Diag of an
      expression: element [i] is element [g i] of [e];
    - [Op o dom F e k]: the non-elementwise [Unary<Op, B, false>]
      (unary.hpp 79-151) of the by-value object [o]: it reads elements
      [dom] of its argument [e] and makes of them the block [F values];
      [k] names the node's member [cache_].
    The booleans say whether [Traversal] (traversal.hpp 33-178) descends
    into the argument: it does not when the argument's block type is
    const qualified or has no specialisation (the primary template, lines
    33-38).  The non-elementwise Binary and Ternary nodes have no users
    in the library and are left out. *)
Inductive expr : Type :=
| Leaf (at_ : I -> Z)
| Scal (c : T)
| Un (f : T -> T) (d : bool) (a : expr)
| Bin (f : T -> T -> T) (d1 : bool) (a : expr) (d2 : bool) (b : expr)
| Ter (f : T -> T -> T -> T) (d1 : bool) (a : expr) (d2 : bool) (b : expr)
      (d3 : bool) (c : expr)
| View (g : I -> I) (d : bool) (a : expr)
| Op (o : nat) (dom : list I) (F : list T -> I -> T) (d : bool) (a : expr) (k : nat).

(** The outside: memory ([None] is not allocated) and which by-value
    objects (Fft, Fftm) exist.  The functor holds plain references to
    the object's backend and workspace (functor.hpp 106-111) and to the
    block of the argument. *)
Record world := { mem : Z -> option T; live : nat -> bool }.

(** The [cache_] members, null at first (unary.hpp 92, 150). *)
Definition store := nat -> option (I -> T).
Definition set_cache (s : store) (k : nat) (c : I -> T) : store :=
  fun x => if Nat.eqb x k then Some c else s x.

(** Reading all of [l] through a reader that may change the caches. *)
Fixpoint read_all (rd : I -> store -> option (T * store)) (l : list I) (s : store)
  : option (list T * store) :=
  match l with
  | [] => Some ([], s)
  | i :: r =>
      p <- rd i s ;;
      q <- read_all rd r (snd p) ;;
      Some (fst p :: fst q, snd q)
  end.

(** [get] (unary.hpp 66-71 and 103-117, binary.hpp, ternary.hpp,
    subset.hpp ...).  For a delayed node this is [evaluate()] (120-127)
    followed by reading the cache: when there is no cache the operation
    is applied (functor.hpp 98-102: the workspace reads the argument and
    runs the backend; that the result is a function [F] of the values
    read is what the models of the workspace and of the backends
    prove).  Simplified: a failing allocation is not modelled. *)
Fixpoint get (w : world) (e : expr) (i : I) (s : store) {struct e} : option (T * store) :=
  match e with
  | Leaf a => v <- mem w (a i) ;; Some (v, s)
  | Scal c => Some (c, s)
  | Un f _ a => p <- get w a i s ;; Some (f (fst p), snd p)
  | Bin f _ a _ b =>
      p <- get w a i s ;;
      q <- get w b i (snd p) ;;
      Some (f (fst p) (fst q), snd q)
  | Ter f _ a _ b _ c =>
      p <- get w a i s ;;
      q <- get w b i (snd p) ;;
      r <- get w c i (snd q) ;;
      Some (f (fst p) (fst q) (fst r), snd r)
  | View g _ a => get w a (g i) s
  | Op o dom F _ a k =>
      match s k with
      | Some c => Some (c i, s)
      | None =>
          assert live w o ;;
          p <- read_all (get w a) dom s ;;
          Some (F (fst p) i, set_cache (snd p) k (F (fst p)))
      end
  end.

(** [evaluate(block)] (evaluate.hpp 55-60): [Traversal] with the functor
    that calls [evaluate()] on the non-elementwise nodes (25-52),
    arguments first. *)
Fixpoint eval (w : world) (e : expr) (s : store) {struct e} : option store :=
  let sub (d : bool) (a : expr) (s : store) := if d then eval w a s else Some s in
  match e with
  | Leaf _ => Some s
  | Scal _ => Some s
  | Un _ d a => sub d a s
  | Bin _ d1 a d2 b => s1 <- sub d1 a s ;; sub d2 b s1
  | Ter _ d1 a d2 b d3 c =>
      s1 <- sub d1 a s ;;
      s2 <- sub d2 b s1 ;;
      sub d3 c s2
  | View _ d a => sub d a s
  | Op o dom F d a k =>
      s1 <- sub d a s ;;
      match s1 k with
      | Some _ => Some s1
      | None =>
          assert live w o ;;
          p <- read_all (get w a) dom s1 ;;
          Some (set_cache (snd p) k (F (fst p)))
      end
  end.

(** Storing an element. *)
Definition put (w : world) (a : Z) (v : T) : world :=
  {| mem := fun x => if Z.eqb x a then Some v else mem w x; live := live w |}.

(** The loop of the assignment: [lhs.put(i, rhs.get(i))] for the indices
    in loop order (loop_fusion.hpp 30-32, 45-47, 60-62, ...). *)
Fixpoint put_all (lhs : I -> Z) (e : expr) (l : list I) (w : world) (s : store)
  : option (world * store) :=
  match l with
  | [] => Some (w, s)
  | i :: r =>
      p <- get w e i s ;;
      put_all lhs e r (put w (lhs i) (fst p)) (snd p)
  end.

(** [lhs = rhs] (loop_fusion.hpp 25-33 and its two- and
    three-dimensional versions; expression blocks with delayed nodes
    have no direct data access, so no other backend of
    assign_fwd.hpp 50-63 that is defined applies: assign/rbo.hpp is
    included by no header). *)
Definition assign (lhs : I -> Z) (order : list I) (e : expr) (w : world) (s : store)
  : option (world * store) :=
  s1 <- eval w e s ;; put_all lhs e order w s1.

(** Copying a view copies its expression and, node by node, the cache
    pointers (unary.hpp 93): the nodes of the copy get names [n]
    higher than those of the original. *)
Fixpoint copy_expr (n : nat) (e : expr) : expr :=
  match e with
  | Leaf a => Leaf a
  | Scal c => Scal c
  | Un f d a => Un f d (copy_expr n a)
  | Bin f d1 a d2 b => Bin f d1 (copy_expr n a) d2 (copy_expr n b)
  | Ter f d1 a d2 b d3 c =>
      Ter f d1 (copy_expr n a) d2 (copy_expr n b) d3 (copy_expr n c)
  | View g d a => View g d (copy_expr n a)
  | Op o dom F d a k => Op o dom F d (copy_expr n a) (k + n)
  end.
Definition copy_store (n : nat) (s : store) : store :=
  fun x => if Nat.ltb x n then s x else s (x - n).

(** [view.local()] of an expression (unary.hpp 207-218,
    functor.hpp 73-94): the operation is rebuilt over the local blocks
    and wrapped in new nodes whose [cache_] is null.  (Of blocks that
    are not distributed the local block is the block itself.) *)
Definition local_store (n : nat) (s : store) : store :=
  fun x => if Nat.ltb x n then s x else None.

(** ** A program using one view: it reads elements, the outside changes
    (memory is written or freed, objects are destroyed), and the view
    may be replaced by a copy of it or by its local view. *)
Inductive event : Type :=
| Read (i : I)
| Change (w : world)
| Copy (n : nat)
| Local (n : nat).

Fixpoint run (w : world) (e : expr) (s : store) (l : list event) : option (list T) :=
  match l with
  | [] => Some []
  | Read i :: r =>
      p <- get w e i s ;;
      q <- run w e (snd p) r ;;
      Some (fst p :: q)
  | Change w' :: r => run w' e s r
  | Copy n :: r => run w (copy_expr n e) (copy_store n s) r
  | Local n :: r => run w (copy_expr n e) (local_store n s) r
  end.

(** ** Specification. *)

(** What an expression means: every operation is a function of the
    values of its arguments, all taken from the memory [m]. *)
Fixpoint values {B} (f : I -> option B) (l : list I) : option (list B) :=
  match l with
  | [] => Some []
  | i :: r => v <- f i ;; vs <- values f r ;; Some (v :: vs)
  end.

Fixpoint meaning (m : Z -> option T) (e : expr) (i : I) : option T :=
  match e with
  | Leaf a => m (a i)
  | Scal c => Some c
  | Un f _ a => x <- meaning m a i ;; Some (f x)
  | Bin f _ a _ b => x <- meaning m a i ;; y <- meaning m b i ;; Some (f x y)
  | Ter f _ a _ b _ c =>
      x <- meaning m a i ;; y <- meaning m b i ;; z <- meaning m c i ;; Some (f x y z)
  | View g _ a => meaning m a (g i)
  | Op _ dom F _ a _ => vs <- values (meaning m a) dom ;; Some (F vs i)
  end.

(** The delayed nodes of an expression, and the by-value objects they
    belong to. *)
Fixpoint nodes (e : expr) : list nat :=
  match e with
  | Leaf _ | Scal _ => []
  | Un _ _ a => nodes a
  | Bin _ _ a _ b => nodes a ++ nodes b
  | Ter _ _ a _ b _ c => nodes a ++ nodes b ++ nodes c
  | View _ _ a => nodes a
  | Op _ _ _ _ a k => k :: nodes a
  end.
Fixpoint objects (e : expr) : list nat :=
  match e with
  | Leaf _ | Scal _ => []
  | Un _ _ a => objects a
  | Bin _ _ a _ b => objects a ++ objects b
  | Ter _ _ a _ b _ c => objects a ++ objects b ++ objects c
  | View _ _ a => objects a
  | Op o _ _ _ a _ => o :: objects a
  end.

(** The memory read at element [i] outside all delayed operations. *)
Fixpoint direct (e : expr) (i : I) : list Z :=
  match e with
  | Leaf a => [a i]
  | Scal _ => []
  | Un _ _ a => direct a i
  | Bin _ _ a _ b => direct a i ++ direct b i
  | Ter _ _ a _ b _ c => direct a i ++ direct b i ++ direct c i
  | View g _ a => direct a (g i)
  | Op _ _ _ _ _ _ => []
  end.

(** A newly built expression: its nodes are different nodes, none has
    been evaluated. *)
Definition new_expr (e : expr) (s : store) : Prop :=
  NoDup (nodes e) /\ forall k, In k (nodes e) -> s k = None.
(** All of its objects exist. *)
Definition usable (w : world) (e : expr) : Prop :=
  forall o, In o (objects e) -> live w o = true.
(** The delayed operations can read their arguments (an elementwise
    operand does not matter here). *)
Fixpoint readable (m : Z -> option T) (e : expr) : Prop :=
  match e with
  | Leaf _ | Scal _ => True
  | Un _ _ a => readable m a
  | Bin _ _ a _ b => readable m a /\ readable m b
  | Ter _ _ a _ b _ c => readable m a /\ readable m b /\ readable m c
  | View _ _ a => readable m a
  | Op _ dom _ _ a _ => readable m a /\ values (meaning m a) dom <> None
  end.
(** Elementwise operands may overlap the destination only in place. *)
Definition aligned (lhs : I -> Z) (order : list I) (e : expr) : Prop :=
  forall i j, In i order -> In j order -> In (lhs j) (direct e i) -> i = j.

(** The indices read by a program. *)
Fixpoint reads (l : list event) : list I :=
  match l with
  | [] => []
  | Read i :: r => i :: reads r
  | Change _ :: r | Copy _ :: r | Local _ :: r => reads r
  end.

(** Programs that never take the local view; programs that only read
    while the outside changes. *)
Fixpoint no_local (l : list event) : Prop :=
  match l with
  | [] => True
  | Read _ :: r | Change _ :: r | Copy _ :: r => no_local r
  | Local _ :: _ => False
  end.
Fixpoint only_reads (l : list event) : Prop :=
  match l with
  | [] => True
  | Read _ :: r | Change _ :: r => only_reads r
  | Copy _ :: _ | Local _ :: _ => False
  end.

End Lazy.
Arguments expr : clear implicits.
Arguments world : clear implicits.
Arguments event : clear implicits.
