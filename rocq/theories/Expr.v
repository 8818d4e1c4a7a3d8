(** Model of expression blocks and of their evaluation into a destination
    block (src/ovxx/expr, src/ovxx/assign/loop_fusion.hpp,
    src/ovxx/view/operators.hpp, src/vsip/impl/vmmul.hpp, compound assignment
    in src/vsip/impl/vector.hpp, src/vsip/matrix.hpp and src/vsip/tensor.hpp).
    Indices are lists of 1, 2 or 3 numbers.  Arithmetic is exact in an
    arbitrary commutative ring with an arbitrary division; one value type is
    used throughout, conversions on store are the parameter [cv]. *)
From Coq Require Import ZArith List Lia Bool Arith.
From Verif Require Import Base.
Import ListNotations.
Local Open Scope nat_scope.

(** Is the index within the extents? *)
Fixpoint inb (i sz : list nat) : bool :=
  match i, sz with
  | [], [] => true
  | x :: i', n :: sz' => (x <? n) && inb i' sz'
  | _, _ => false
  end.

Section Expr.
Context {R : CRing} (dv : R -> R -> R).

(** A block in memory: extents and the address of every element. *)
Record blk := { bsz : list nat; baddr : list nat -> Z }.
Definition bload (m : mem R) (b : blk) (i : list nat) : option R := assert (inb i (bsz b)) ;; mload m (baddr b i).
Definition bstore (m : mem R) (b : blk) (i : list nat) (v : R) : option (mem R) := assert (inb i (bsz b)) ;; mstore m (baddr b i) v.

(** Element operations: expr/operations.hpp 18-84, fns_elementwise.hpp 257-284
    (ma) and 483-490; [Fn..] stands for every other element function. *)
Inductive op1 := Plus | Minus | Fn1 (f : R -> R).
Inductive op2 := Add | Sub | Mult | Div | Fn2 (f : R -> R -> R).
Inductive op3 := Ma | Fn3 (f : R -> R -> R -> R).
Definition ap1 (o : op1) (x : R) : R := match o with Plus => x | Minus => ropp x | Fn1 f => f x end.
Definition ap2 (o : op2) (x y : R) : R :=
  match o with Add => radd x y | Sub => rsub x y | Mult => rmul x y | Div => dv x y | Fn2 f => f x y end.
Definition ap3 (o : op3) (x y z : R) : R := match o with Ma => radd (rmul x y) z | Fn3 f => f x y z end.

(** Expression blocks: stored blocks; expr/scalar.hpp 66-104; expr/generator.hpp 33-66;
    expr/unary.hpp 41-78, binary.hpp 57-122, ternary.hpp 58-143 (elementwise);
    expr/vmmul.hpp 21-64 ([byrow] is D == 0); sub-view blocks of an expression
    (Subset, Transposed, Permuted, Sliced, Component), which only rename
    indices; and the non-elementwise nodes unary.hpp 82-157, binary.hpp 124-200,
    ternary.hpp 145-220, whose operation computes a whole block from its
    arguments and which keep the result in [cache].  An operation may fail
    (return [None]). *)
Inductive expr :=
| Leaf (b : blk)
| Scal (v : R)
| Gen (sz : list nat) (g : list nat -> R)
| Un (o : op1) (a : expr)
| Bin (o : op2) (a b : expr)
| Ter (o : op3) (a b c : expr)
| Vmm (byrow : bool) (v a : expr)
| Sub_ (sz : list nat) (ix : list nat -> list nat) (a : expr)
| Ne1 (sz : list nat) (f : (list nat -> option R) -> option (list nat -> R)) (a : expr) (cache : option (list nat -> R))
| Ne2 (sz : list nat) (f : (list nat -> option R) -> (list nat -> option R) -> option (list nat -> R)) (a b : expr) (cache : option (list nat -> R))
| Ne3 (sz : list nat) (f : (list nat -> option R) -> (list nat -> option R) -> (list nat -> option R) -> option (list nat -> R)) (a b c : expr) (cache : option (list nat -> R)).

(** get(i), get(i,j), get(i,j,k).  The result includes the expression after
    the call, since non-elementwise nodes fill their caches (evaluate(),
    unary.hpp 127-134, binary.hpp 169-176, ternary.hpp 189-196).  The argument
    caches filled while a node evaluates are dropped: the node never looks at
    its arguments again. *)
Fixpoint get (m : mem R) (e : expr) (i : list nat) : option (R * expr) :=
  match e with
  | Leaf b => v <- bload m b i ;; Some (v, e)
  | Scal v => Some (v, e)
  | Gen _ g => Some (g i, e)
  | Un o a => ra <- get m a i ;; Some (ap1 o (fst ra), Un o (snd ra))
  | Bin o a b => ra <- get m a i ;; rb <- get m b i ;; Some (ap2 o (fst ra) (fst rb), Bin o (snd ra) (snd rb))
  | Ter o a b c => ra <- get m a i ;; rb <- get m b i ;; rc <- get m c i ;;
                   Some (ap3 o (fst ra) (fst rb) (fst rc), Ter o (snd ra) (snd rb) (snd rc))
  | Vmm byrow v a =>
    match i with
    | [r; c] => rv <- get m v [if byrow then c else r] ;; ra <- get m a i ;;
                Some (rmul (fst rv) (fst ra), Vmm byrow (snd rv) (snd ra))
    | _ => None
    end
  | Sub_ sz ix a => assert (inb i sz) ;; ra <- get m a (ix i) ;; Some (fst ra, Sub_ sz ix (snd ra))
  | Ne1 sz f a c =>
    g <- (match c with Some g => Some g | None => f (fun j => option_map fst (get m a j)) end) ;;
    assert (inb i sz) ;; Some (g i, Ne1 sz f a (Some g))
  | Ne2 sz f a b c =>
    g <- (match c with Some g => Some g
          | None => f (fun j => option_map fst (get m a j)) (fun j => option_map fst (get m b j)) end) ;;
    assert (inb i sz) ;; Some (g i, Ne2 sz f a b (Some g))
  | Ne3 sz f a b d c =>
    g <- (match c with Some g => Some g
          | None => f (fun j => option_map fst (get m a j)) (fun j => option_map fst (get m b j)) (fun j => option_map fst (get m d j)) end) ;;
    assert (inb i sz) ;; Some (g i, Ne3 sz f a b d (Some g))
  end.

(** expr/evaluate.hpp 20-56, the functor applied to one node. *)
Definition eval_node (m : mem R) (e : expr) : option expr :=
  match e with
  | Ne1 sz f a None => g <- f (fun j => option_map fst (get m a j)) ;; Some (Ne1 sz f a (Some g))
  | Ne2 sz f a b None => g <- f (fun j => option_map fst (get m a j)) (fun j => option_map fst (get m b j)) ;; Some (Ne2 sz f a b (Some g))
  | Ne3 sz f a b c None =>
    g <- f (fun j => option_map fst (get m a j)) (fun j => option_map fst (get m b j)) (fun j => option_map fst (get m c j)) ;;
    Some (Ne3 sz f a b c (Some g))
  | _ => Some e
  end.
(** expr/evaluate.hpp 58-63, expr/traversal.hpp 34-177.  The traversal descends
    one level only: operand block types are const-qualified, and the
    specialisations that descend further match unqualified types only. *)
Definition evaluate (m : mem R) (e : expr) : option expr :=
  match e with
  | Un o a => a <- eval_node m a ;; Some (Un o a)
  | Bin o a b => a <- eval_node m a ;; b <- eval_node m b ;; Some (Bin o a b)
  | Ter o a b c => a <- eval_node m a ;; b <- eval_node m b ;; c <- eval_node m c ;; Some (Ter o a b c)
  | Vmm byrow v a => v <- eval_node m v ;; a <- eval_node m a ;; Some (Vmm byrow v a)
  | Sub_ sz ix a => a <- eval_node m a ;; Some (Sub_ sz ix a)
  | Ne1 sz f a c => a <- eval_node m a ;; eval_node m (Ne1 sz f a c)
  | Ne2 sz f a b c => a <- eval_node m a ;; b <- eval_node m b ;; eval_node m (Ne2 sz f a b c)
  | Ne3 sz f a b d c => a <- eval_node m a ;; b <- eval_node m b ;; d <- eval_node m d ;; eval_node m (Ne3 sz f a b d c)
  | _ => Some e
  end.

(** ** loop_fusion.hpp *)
(** lhs.put(i.., rhs.get(i..)), with the conversion [cv] to the value type of lhs. *)
Definition put_get (cv : R -> R) (lhs : blk) (i : list nat) (s : expr * mem R) : option (expr * mem R) :=
  r <- get (snd s) (fst s) i ;; m <- bstore (snd s) lhs i (cv (fst r)) ;; Some (snd r, m).
Definition ext (b : blk) (d : nat) : nat := nth d (bsz b) 0.

(** loop_fusion.hpp 23-33. *)
Definition fuse1 (cv : R -> R) (lhs : blk) (e : expr) (m : mem R) : option (mem R) :=
  e <- evaluate m e ;;
  s <- loop (fun i s => put_get cv lhs [i] s) 0 (ext lhs 0) (e, m) ;; Some (snd s).
(** loop_fusion.hpp 35-65: row2_type, col2_type. *)
Inductive ord2 := O01 | O10.
Definition fuse2 (o : ord2) (cv : R -> R) (lhs : blk) (e : expr) (m : mem R) : option (mem R) :=
  e <- evaluate m e ;;
  let rows := ext lhs 0 in let cols := ext lhs 1 in
  s <- (match o with
        | O01 => loop (fun i s => loop (fun j s => put_get cv lhs [i; j] s) 0 cols s) 0 rows (e, m)
        | O10 => loop (fun j s => loop (fun i s => put_get cv lhs [i; j] s) 0 rows s) 0 cols (e, m)
        end) ;; Some (snd s).
(** loop_fusion.hpp 67-171: the six orders of three dimensions. *)
Inductive ord3 := O012 | O021 | O102 | O120 | O201 | O210.
Definition fuse3 (o : ord3) (cv : R -> R) (lhs : blk) (e : expr) (m : mem R) : option (mem R) :=
  e <- evaluate m e ;;
  let size0 := ext lhs 0 in let size1 := ext lhs 1 in let size2 := ext lhs 2 in
  s <- (match o with
        | O012 => loop (fun i s => loop (fun j s => loop (fun k s => put_get cv lhs [i; j; k] s) 0 size2 s) 0 size1 s) 0 size0 (e, m)
        | O021 => loop (fun i s => loop (fun k s => loop (fun j s => put_get cv lhs [i; j; k] s) 0 size1 s) 0 size2 s) 0 size0 (e, m)
        | O102 => loop (fun j s => loop (fun i s => loop (fun k s => put_get cv lhs [i; j; k] s) 0 size2 s) 0 size0 s) 0 size1 (e, m)
        | O120 => loop (fun j s => loop (fun k s => loop (fun i s => put_get cv lhs [i; j; k] s) 0 size0 s) 0 size2 s) 0 size1 (e, m)
        | O201 => loop (fun k s => loop (fun i s => loop (fun j s => put_get cv lhs [i; j; k] s) 0 size1 s) 0 size0 s) 0 size2 (e, m)
        | O210 => loop (fun k s => loop (fun j s => loop (fun i s => put_get cv lhs [i; j; k] s) 0 size0 s) 0 size1 s) 0 size2 (e, m)
        end) ;; Some (snd s).

(** ** Sizes *)
(** block_traits.hpp 127-133, scalar.hpp 114-116: only scalars have no size. *)
Definition sized (e : expr) : bool := match e with Scal _ => false | _ => true end.
(** size(D, d) for all d, as a list: scalar.hpp (0 in every dimension; the
    dimension [d] of the scalar block is fixed by its context),
    binary.hpp 86-98, ternary.hpp 96-107, vmmul.hpp 40-42, generator.hpp 47-51. *)
Fixpoint esize (d : nat) (e : expr) : list nat :=
  match e with
  | Leaf b => bsz b
  | Scal _ => repeat 0 d
  | Gen sz _ => sz
  | Un _ a => esize d a
  | Bin _ a b => if negb (sized a) then esize d b else if negb (sized b) then esize d a else esize d a
  | Ter _ a b c => if sized a then esize d a else if sized b then esize d b else esize d c
  | Vmm _ _ a => esize d a
  | Sub_ sz _ _ => sz
  | Ne1 sz _ _ _ => sz
  | Ne2 sz _ _ _ _ => sz
  | Ne3 sz _ _ _ _ _ => sz
  end.

(** ** Operators (view/operators.hpp) *)
(** operator+ on two operands, lines 33-150: multiplications are fused. *)
Definition op_add (l r : expr) : expr :=
  match l, r with
  | Bin Mult a b, Bin Mult c d => Ter Ma a b (Bin Mult c d)
  | Bin Mult a b, c => Ter Ma a b c
  | a, Bin Mult b c => Ter Ma b c a
  | _, _ => Bin Add l r
  end.
(** lines 152-339: the other operators build one node. *)
Definition op_sub (l r : expr) : expr := Bin Sub l r.
Definition op_mul (l r : expr) : expr := Bin Mult l r.
Definition op_div (l r : expr) : expr := Bin Div l r.
Definition op_neg (a : expr) : expr := Un Minus a.
Definition op_pos (a : expr) : expr := Un Plus a.
Inductive aop := PlusEq | MinusEq | TimesEq | DivEq.
Definition apply_op (o : aop) (l r : expr) : expr :=
  match o with PlusEq => op_add l r | MinusEq => op_sub l r | TimesEq => op_mul l r | DivEq => op_div l r end.

(** ** Compound assignment *)
(** vector.hpp 96-97, 103-104, 114-123, matrix.hpp 301-302, 309-310, 318-327:
    [*this = *this op rhs], where rhs is another view or a scalar block holding
    a copy of the scalar. *)
Definition assign_op1 (o : aop) (b : blk) (rhs : expr) (m : mem R) : option (mem R) :=
  fuse1 (fun x => x) b (apply_op o (Leaf b) rhs) m.
Definition assign_op2 (ord : ord2) (o : aop) (b : blk) (rhs : expr) (m : mem R) : option (mem R) :=
  fuse2 ord (fun x => x) b (apply_op o (Leaf b) rhs) m.
(** The right-hand operand of [&=], [|=], [^=] and of all compound operators
    on tensors: a scalar passed by reference (its address is read again for
    every element) or another view. *)
Inductive operand := ByRef (a : Z) | View (b : blk).
Definition rd (m : mem R) (v : operand) (i : list nat) : option R :=
  match v with ByRef a => mload m a | View b => bload m b i end.
Definition elem_op (f : R -> R -> R) (b : blk) (v : operand) (i : list nat) (m : mem R) : option (mem R) :=
  x <- bload m b i ;; y <- rd m v i ;; bstore m b i (f x y).
Definition conf (b : blk) (v : operand) : bool :=
  match v with ByRef _ => true | View b' => if list_eq_dec Nat.eq_dec (bsz b) (bsz b') then true else false end.
(** vector.hpp 99-101, 106-109, 125-134; matrix.hpp 304-307, 312-316; tensor.hpp 482-506. *)
Definition nofwd1 (f : R -> R -> R) (b : blk) (v : operand) (m : mem R) : option (mem R) :=
  assert (conf b v) ;; loop (fun i m => elem_op f b v [i] m) 0 (ext b 0) m.
Definition nofwd2 (f : R -> R -> R) (b : blk) (v : operand) (m : mem R) : option (mem R) :=
  assert (conf b v) ;; loop (fun r m => loop (fun c m => elem_op f b v [r; c] m) 0 (ext b 1) m) 0 (ext b 0) m.
Definition nofwd3 (f : R -> R -> R) (b : blk) (v : operand) (m : mem R) : option (mem R) :=
  assert (conf b v) ;;
  loop (fun i m => loop (fun j m => loop (fun k m => elem_op f b v [i; j; k] m) 0 (ext b 2) m) 0 (ext b 1) m) 0 (ext b 0) m.

(** ** vmmul (vsip/impl/vmmul.hpp) *)
Definition brow (b : blk) (r : nat) : blk := {| bsz := [ext b 1]; baddr := fun i => match i with [c] => baddr b [r; c] | _ => 0%Z end |}.
Definition bcol (b : blk) (c : nat) : blk := {| bsz := [ext b 0]; baddr := fun i => match i with [r] => baddr b [r; c] | _ => 0%Z end |}.
(** vmmul.hpp 67-108: assignment of vmmul<D>(v, m) with stored v and m;
    [O01] is a row-major destination, [byrow] is D == row. *)
Definition vmmul (o : ord2) (byrow : bool) (lhs v a : blk) (m : mem R) : option (mem R) :=
  match o, byrow with
  | O01, true => loop (fun r m => fuse1 (fun x => x) (brow lhs r) (op_mul (Leaf v) (Leaf (brow a r))) m) 0 (ext lhs 0) m
  | O01, false => loop (fun r m => s <- bload m v [r] ;;
                        fuse1 (fun x => x) (brow lhs r) (op_mul (Scal s) (Leaf (brow a r))) m) 0 (ext lhs 0) m
  | O10, true => loop (fun c m => s <- bload m v [c] ;;
                        fuse1 (fun x => x) (bcol lhs c) (op_mul (Scal s) (Leaf (bcol a c))) m) 0 (ext lhs 1) m
  | O10, false => loop (fun c m => fuse1 (fun x => x) (bcol lhs c) (op_mul (Leaf v) (Leaf (bcol a c))) m) 0 (ext lhs 1) m
  end.

(** * Specification *)
(** The value of an expression at an index, in a memory: no caches. *)
Fixpoint val (m : mem R) (e : expr) (i : list nat) : option R :=
  match e with
  | Leaf b => bload m b i
  | Scal v => Some v
  | Gen _ g => Some (g i)
  | Un o a => x <- val m a i ;; Some (ap1 o x)
  | Bin o a b => x <- val m a i ;; y <- val m b i ;; Some (ap2 o x y)
  | Ter o a b c => x <- val m a i ;; y <- val m b i ;; z <- val m c i ;; Some (ap3 o x y z)
  | Vmm byrow v a => match i with [r; c] => x <- val m v [if byrow then c else r] ;; y <- val m a i ;; Some (rmul x y) | _ => None end
  | Sub_ sz ix a => assert (inb i sz) ;; val m a (ix i)
  | Ne1 sz f a _ => g <- f (val m a) ;; assert (inb i sz) ;; Some (g i)
  | Ne2 sz f a b _ => g <- f (val m a) (val m b) ;; assert (inb i sz) ;; Some (g i)
  | Ne3 sz f a b c _ => g <- f (val m a) (val m b) (val m c) ;; assert (inb i sz) ;; Some (g i)
  end.
(** The cells an element of the expression is computed from, not counting
    what the non-elementwise operations read. *)
Fixpoint reads (e : expr) (i : list nat) (a : Z) : Prop :=
  match e with
  | Leaf b => a = baddr b i
  | Scal _ | Gen _ _ => False
  | Un _ x => reads x i a
  | Bin _ x y => reads x i a \/ reads y i a
  | Ter _ x y z => reads x i a \/ reads y i a \/ reads z i a
  | Vmm byrow v x => match i with [r; c] => reads v [if byrow then c else r] a \/ reads x i a | _ => False end
  | Sub_ _ ix x => reads x (ix i) a
  | Ne1 _ _ _ _ | Ne2 _ _ _ _ _ | Ne3 _ _ _ _ _ _ => False
  end.
(** The expression is well formed and its caches are empty or hold what they
    should: every non-elementwise operation depends only on the elements of
    its arguments and succeeds in memory [m]. *)
Definition fits (g : option (list nat -> R)) (c : option (list nat -> R)) : Prop := g <> None /\ (c = None \/ c = g).
Fixpoint ready (m : mem R) (e : expr) : Prop :=
  match e with
  | Leaf _ | Scal _ | Gen _ _ => True
  | Un _ a => ready m a
  | Bin _ a b => ready m a /\ ready m b
  | Ter _ a b c => ready m a /\ ready m b /\ ready m c
  | Vmm _ v a => ready m v /\ ready m a
  | Sub_ _ _ a => ready m a
  | Ne1 _ f a c => ready m a /\ fits (f (val m a)) c /\
      (forall x x', (forall i, x i = x' i) -> f x = f x')
  | Ne2 _ f a b c => ready m a /\ ready m b /\ fits (f (val m a) (val m b)) c /\
      (forall x x' y y', (forall i, x i = x' i) -> (forall i, y i = y' i) -> f x y = f x' y')
  | Ne3 _ f a b d c => ready m a /\ ready m b /\ ready m d /\ fits (f (val m a) (val m b) (val m d)) c /\
      (forall x x' y y' z z', (forall i, x i = x' i) -> (forall i, y i = y' i) -> (forall i, z i = z' i) -> f x y z = f x' y' z')
  end.
(** The block's elements are allocated, each in a cell of its own. *)
Definition own (m : mem R) (b : blk) : Prop :=
  (forall i, inb i (bsz b) = true -> m (baddr b i) <> None) /\
  (forall i j, inb i (bsz b) = true -> inb j (bsz b) = true -> baddr b i = baddr b j -> i = j).
(** Computing one element uses no other element of the destination. *)
Definition no_cross (lhs : blk) (e : expr) : Prop :=
  forall i j, inb i (bsz lhs) = true -> inb j (bsz lhs) = true -> i <> j -> ~ reads e i (baddr lhs j).
(** [m'] is [m] after assigning: every element of [lhs] holds the value the
    expression had in [m], nothing else has changed. *)
Definition assigned (cv : R -> R) (lhs : blk) (e : expr) (m m' : mem R) : Prop :=
  (forall i, inb i (bsz lhs) = true -> exists v, val m e i = Some v /\ m' (baddr lhs i) = Some (cv v)) /\
  (forall a, (forall i, inb i (bsz lhs) = true -> a <> baddr lhs i) -> m' a = m a).
(** The expression has extents [sz] and all operands fit: those of an
    elementwise operation are scalars or have the extents of the result, the
    vector of a vector-matrix product has as many elements as a row (or column) of
    the matrix, and indices of a sub-view fall within the viewed expression. *)
Fixpoint conforms (sz : list nat) (e : expr) : Prop :=
  match e with
  | Scal _ => False
  | Un _ a => conforms sz a
  | Bin _ a b =>
    (sized a = false \/ conforms sz a) /\ (sized b = false \/ conforms sz b) /\ (sized a || sized b) = true
  | Ter _ a b c =>
    (sized a = false \/ conforms sz a) /\ (sized b = false \/ conforms sz b) /\ (sized c = false \/ conforms sz c) /\
    (sized a || sized b || sized c) = true
  | Vmm byrow v a => conforms sz a /\ (exists r c, sz = [r; c] /\ conforms [if byrow then c else r] v)
  | Sub_ s ix a => s = sz /\ exists sz', conforms sz' a /\ forall i, inb i sz = true -> inb (ix i) sz' = true
  | Leaf b => bsz b = sz
  | Gen s _ | Ne1 s _ _ _ | Ne2 s _ _ _ _ | Ne3 s _ _ _ _ _ => s = sz
  end.
(** Every element of a block is allocated; every stored operand is. *)
Definition mapped (m : mem R) (b : blk) : Prop := forall i, inb i (bsz b) = true -> m (baddr b i) <> None.
Fixpoint leaves_mapped (m : mem R) (e : expr) : Prop :=
  match e with
  | Leaf b => mapped m b
  | Scal _ | Gen _ _ => True
  | Un _ a => leaves_mapped m a
  | Bin _ a b => leaves_mapped m a /\ leaves_mapped m b
  | Ter _ a b c => leaves_mapped m a /\ leaves_mapped m b /\ leaves_mapped m c
  | Vmm _ v a => leaves_mapped m v /\ leaves_mapped m a
  | Sub_ _ _ a => leaves_mapped m a
  | Ne1 _ _ _ _ | Ne2 _ _ _ _ _ | Ne3 _ _ _ _ _ _ => True
  end.
(** The scalar at address [a], or the view, as an expression. *)
Definition operand_expr (sz : list nat) (v : operand) : expr :=
  match v with ByRef a => Leaf {| bsz := sz; baddr := fun _ => a |} | View b => Leaf b end.
(** The element operation of a compound assignment. *)
Definition bin_of (o : aop) : op2 := match o with PlusEq => Add | MinusEq => Sub | TimesEq => Mult | DivEq => Div end.
(** The right-hand side is readable and no element of it is an element of the
    destination with another index. *)
Definition separate (m : mem R) (b : blk) (v : operand) : Prop :=
  match v with
  | ByRef a => m a <> None /\ forall i, inb i (bsz b) = true -> a <> baddr b i
  | View b' => bsz b' = bsz b /\ mapped m b' /\
      forall i j, inb i (bsz b) = true -> inb j (bsz b) = true -> i <> j -> baddr b' i <> baddr b j
  end.
End Expr.
Arguments expr : clear implicits.
Arguments op1 : clear implicits.
Arguments op2 : clear implicits.
Arguments op3 : clear implicits.
