(** * Reductions of distributed views

    The generic evaluators of ovxx/reductions/reductions.hpp and
    reductions_idx.hpp on a distributed block: reduction::dispatcher (41-70)
    lists be::parallel first, but no evaluator for it exists (nor, here, for
    cuda and cvsip), so every processor runs the loops of the generic evaluator
    over the whole view, and each get() is that of the distributed block
    (DBlock.v).  Loops are written with a continuation: what the program does with
    the state at the end.  Functors are those of Reduce.v.

    Not modelled: vectors of 4096 or more single-precision elements, which are
    summed through dda::Data (a local copy of the whole view, C73, and C28). *)
From Coq Require Import List Arith ZArith Lia Bool.
From Verif Require Import Base Reduce Dist Traversal Map ParAssign DBlock.
Import ListNotations.
Local Open Scope nat_scope.

(** ** Elementwise expressions of distributed blocks *)
Section Expr.
Context {V : Type}.
(** A distributed block; a scalar; a unary or binary expression (ternary ones are
    built from binary ones).  The flag: C++ leaves open which argument of a
    call is evaluated first; all processors run the same program. *)
Inductive dexpr : Type -> Type :=
| Elem (v : nat) : dexpr V
| Const {A} (x : A) : dexpr A
| Unary {A B} (f : A -> B) (e : dexpr A) : dexpr B
| Binary {A B C} (f : A -> B -> C) (left_first : bool) (e1 : dexpr A) (e2 : dexpr B) : dexpr C.
(** get(): distributed_block.hpp 145-222, scalar.hpp 78-104, unary.hpp 66-71,
    binary.hpp 108-122, ternary.hpp 119-137. *)
Fixpoint p_get {A} (e : dexpr A) (i : list nat) : (A -> prog V) -> prog V :=
  match e in dexpr T return (T -> prog V) -> prog V with
  | Elem v => fun k => Get v i k
  | Const x => fun k => k x
  | Unary f e' => fun k => p_get e' i (fun x => k (f x))
  | Binary f true e1 e2 => fun k => p_get e1 i (fun x => p_get e2 i (fun y => k (f x y)))
  | Binary f false e1 e2 => fun k => p_get e2 i (fun y => p_get e1 i (fun x => k (f x y)))
  end.
End Expr.
Arguments dexpr : clear implicits.

Section PReduce.
Context {V A S R : Type}.
Variable F : functor A S R.
Notation prog := (prog V).
Variable get : list nat -> (A -> prog) -> prog.

(** reductions.hpp 265-269 and the innermost loops of 326-330, 358-362. *)
Fixpoint p_brk (ix : nat -> list nat) (i n : nat) (s : S) (k : S -> prog) : prog :=
  match n with
  | 0 => k s
  | Datatypes.S n' => get (ix i) (fun x => let s' := update F s x in if done F s' then k s' else p_brk ix (i + 1) n' s' k)
  end.
(** [for (i = 0; i != n; ++i) body]. *)
Fixpoint p_for {T} (f : nat -> T -> (T -> prog) -> prog) (i n : nat) (s : T) (k : T -> prog) : prog :=
  match n with
  | 0 => k s
  | Datatypes.S n' => f i s (fun s' => p_for f (i + 1) n' s' k)
  end.
(** reductions.hpp 237-271, 305-334, 336-366. *)
Definition p_reduce (o : list nat) (ext : list nat) (k : R -> prog) : prog :=
  match o, ext with
  | [0], [n] => p_brk (fun i => [i]) 0 n (initial F) (fun s => k (value F s n))
  | [d1; d2], [_; _] =>
      p_for (fun x => p_brk (fun y => lset (lset [0;0] d1 x) d2 y) 0 (nth d2 ext 0)) 0 (nth d1 ext 0) (initial F)
        (fun s => k (value F s (nth 0 ext 0 * nth 1 ext 0)))
  | [d1; d2; d3], [_; _; _] =>
      p_for (fun x => p_for (fun y => p_brk (fun z => lset (lset (lset [0;0;0] d1 x) d2 y) d3 z) 0 (nth d3 ext 0))
                        0 (nth d2 ext 0)) 0 (nth d1 ext 0) (initial F)
        (fun s => k (value F s (nth 0 ext 0 * nth 1 ext 0 * nth 2 ext 0)))
  | _, _ => Done
  end.
End PReduce.

Section PIndex.
Context {V A K : Type}.
Variable key : A -> K.
Variable better : K -> K -> bool.
Notation prog := (prog V).
Variable get : list nat -> (A -> prog) -> prog.
(** next_value, functors.hpp 276-411. *)
Definition p_visit (i : list nat) (s : K * list nat) (k : K * list nat -> prog) : prog :=
  get i (fun x => k (if better (key x) (fst s) then (key x, i) else s)).
Definition p_for2 {T} (n m : nat) (f : nat -> nat -> T -> (T -> prog) -> prog) (s : T) (k : T -> prog) : prog :=
  p_for (fun x => p_for (f x) 0 m) 0 n s k.
Definition p_for3 {T} (n m p : nat) (f : nat -> nat -> nat -> T -> (T -> prog) -> prog) (s : T) (k : T -> prog) : prog :=
  p_for (fun x => p_for (fun y => p_for (f x y) 0 p) 0 m) 0 n s k.
(** reductions_idx.hpp 34-56, 60-89, 93-122, 126-338. *)
Definition p_reduce_idx (o : list nat) (ext : list nat) (k : K * list nat -> prog) : prog :=
  let vi := p_visit in
  match ext, o with
  | [n0], [0] => get [0] (fun x => p_for (fun i => vi [i]) 0 n0 (key x, [0]) k)
  | [n0; n1], [0;1] => get [0;0] (fun x => p_for2 n0 n1 (fun i j => vi [i;j]) (key x, [0;0]) k)
  | [n0; n1], [1;0] => get [0;0] (fun x => p_for2 n1 n0 (fun j i => vi [i;j]) (key x, [0;0]) k)
  | [n0; n1; n2], [0;1;2] => get [0;0;0] (fun x => p_for3 n0 n1 n2 (fun i j l => vi [i;j;l]) (key x, [0;0;0]) k)
  | [n0; n1; n2], [0;2;1] => get [0;0;0] (fun x => p_for3 n0 n2 n1 (fun i l j => vi [i;j;l]) (key x, [0;0;0]) k)
  | [n0; n1; n2], [1;0;2] => get [0;0;0] (fun x => p_for3 n1 n0 n2 (fun j i l => vi [i;j;l]) (key x, [0;0;0]) k)
  | [n0; n1; n2], [1;2;0] => get [0;0;0] (fun x => p_for3 n1 n2 n0 (fun j l i => vi [i;j;l]) (key x, [0;0;0]) k)
  | [n0; n1; n2], [2;0;1] => get [0;0;0] (fun x => p_for3 n2 n0 n1 (fun l i j => vi [i;j;l]) (key x, [0;0;0]) k)
  | [n0; n1; n2], [2;1;0] => get [0;0;0] (fun x => p_for3 n2 n1 n0 (fun l j i => vi [i;j;l]) (key x, [0;0;0]) k)
  | _, _ => Done
  end.
End PIndex.

(** The reductions of an expression. *)
Definition d_reduce {V A S R} (F : functor A S R) (o ext : list nat) (e : dexpr V A) : (R -> prog V) -> prog V := p_reduce F (p_get e) o ext.
Definition d_reduce_idx {V A K} (key : A -> K) (better : K -> K -> bool) (o ext : list nat) (e : dexpr V A) : (K * list nat -> prog V) -> prog V :=
  p_reduce_idx key better (p_get e) o ext.

(** * Specification *)
Section Spec.
Context {V : Type}.
(** The element of an expression, and that its blocks are among those in use and
    have the sizes of the view. *)
Fixpoint element (X : nat -> list nat -> V) {A} (e : dexpr V A) (i : list nat) : A :=
  match e in dexpr _ T return T with
  | Elem v => X v i
  | Const x => x
  | Unary f e' => f (element X e' i)
  | Binary f _ e1 e2 => f (element X e1 i) (element X e2 i)
  end.
Fixpoint conforms (D : nat -> amap) (U : nat -> Prop) (ext : list nat) {A} (e : dexpr V A) : Prop :=
  match e with
  | Elem v => U v /\ a_ext (D v) = ext
  | Const _ => True
  | Unary _ e' => conforms D U ext e'
  | Binary _ _ e1 e2 => conforms D U ext e1 /\ conforms D U ext e2
  end.
(** Every processor executes [p], starting with its part of the arrays [X]: in
    whatever order they proceed nothing goes wrong, some processor can go on until
    all are finished, all can finish, and a processor that is finished holds
    its part of the arrays [X']. *)
Definition ends_with (n : nat) (D : nat -> amap) (U : nat -> Prop) (X : nat -> list nat -> V) (p : prog V) (X' : nat -> list nat -> V) : Prop :=
  forall m sched, (forall r, r < n -> holds_of V D U X r (m r)) -> Forall (fun r => r < n) sched ->
  exists s, exec V n D (start V m p) sched = Some s /\
    (forall r, r < n -> todo s r = Done -> holds_of V D U X' r (mem_ s r)) /\
    ((exists r, r < n /\ todo s r <> Done) -> exists r s', r < n /\ step V n D s r = Next s') /\
    exists more s', Forall (fun r => r < n) more /\ exec V n D s more = Some s' /\ forall r, r < n -> todo s' r = Done.
(** A computation that leaves its result to the rest of the program gives the value
    [x] on every processor: whatever the rest of the program is, everything
    ends as if one processor with ordinary arrays had gone on with [x]. *)
Definition gives {T} (n : nat) (D : nat -> amap) (U : nat -> Prop) (X : nat -> list nat -> V) (c : (T -> prog V) -> prog V) (x : T) : Prop :=
  forall rest, (forall y, prog_ok V D U (rest y)) -> ends_with n D U X (c rest) (seq_final V X (rest x)).
End Spec.
