(** Model of the matrix and vector products (src/vsip/impl/matvec.hpp and
    src/vsip/impl/matvec_prod.hpp, generic evaluators; the BLAS, CUDA, OpenCL
    and C-VSIPL backends are not modelled).
    Vectors and matrices are blocks in memory ([Freqswap.block1], [block2]).
    Exact arithmetic over a commutative ring; one ring for all element types.
    [conj] is the conjugation of the element type (the identity for real
    types). *)
From Coq Require Import ZArith List Lia Bool Arith.
From Verif Require Import Base Fir Freqswap Conv.
Import ListNotations.
Local Open Scope nat_scope.

Section Matvec.
Context {K : CRing} (conj : K -> K).
Local Open Scope cr_scope.
Implicit Types m : mem K.

(** Operands: a block, or a transposed or conjugated view of one, evaluated
    element by element. *)
Record arg1 := { alen : nat; aget1 : mem K -> nat -> option K }.
Record arg2 := { arows : nat; acols : nat; aget2 : mem K -> nat -> nat -> option K }.
Definition plain1 (b : block1) : arg1 := {| alen := len b; aget1 := fun m i => get1 m b i |}.
Definition plain2 (b : block2) : arg2 := {| arows := rows b; acols := cols b; aget2 := fun m i j => get2 m b i j |}.
Definition conj1 (a : arg1) : arg1 := {| alen := alen a; aget1 := fun m i => x <- aget1 a m i ;; Some (conj x) |}.
Definition conj2 (a : arg2) : arg2 := {| arows := arows a; acols := acols a; aget2 := fun m i j => x <- aget2 a m i j ;; Some (conj x) |}.
Definition trans2 (a : arg2) : arg2 := {| arows := acols a; acols := arows a; aget2 := fun m i j => aget2 a m j i |}.
(** matvec.hpp 302-450: apply_mat_op. *)
Inductive mat_op := mat_ntrans | mat_trans | mat_herm | mat_conj.
Definition apply_mat_op (o : mat_op) (a : arg2) : arg2 :=
  match o with mat_ntrans => a | mat_trans => trans2 a | mat_herm => conj2 (trans2 a) | mat_conj => conj2 a end.

(** for (index_type i = n; i-- > 0;) *)
Definition down {A} (n : nat) (f : nat -> A -> option A) (x : A) : option A := loop (fun t x => f (n - 1 - t)%nat x) 0 n x.

(** matvec.hpp 48-65 (hermitian = false) and 72-89 (complex alpha: true). *)
Definition outer (hermitian : bool) (r : block2) (alpha : K) (a b : arg1) (m : mem K) : option (mem K) :=
  assert (alen a =? rows r)%nat ;; assert (alen b =? cols r)%nat ;;
  down (alen a) (fun i m => down (alen b) (fun j m =>
    x <- aget1 a m i ;; y <- aget1 b m j ;; put2 m r i j (alpha * x * (if hermitian then conj y else y))) m) m.
(** matvec.hpp 106-121. *)
Definition dot (a b : arg1) (m : mem K) : option K :=
  assert (alen a =? alen b)%nat ;;
  loop (fun i r => x <- aget1 a m i ;; y <- aget1 b m i ;; Some (r + x * y)) 0 (alen a) 0.
(** matvec.hpp 575-584. *)
Definition cvjdot (v w : arg1) (m : mem K) : option K := dot v (conj1 w) m.
(** matvec.hpp 139-166. *)
Definition gemp_exec (c : block2) (alpha : K) (a b : arg2) (beta : K) (m : mem K) : option (mem K) :=
  assert (arows a =? rows c)%nat ;; assert (acols b =? cols c)%nat ;; assert (acols a =? arows b)%nat ;;
  down (arows a) (fun i m => down (acols b) (fun j m =>
    d <- loop (fun k d => x <- aget2 a m i k ;; y <- aget2 b m k j ;; Some (d + x * y)) 0 (acols a) 0 ;;
    z <- get2 m c i j ;; put2 m c i j (alpha * d + beta * z)) m) m.
(** matvec.hpp 266-289, 650-680. *)
Definition gemp (opA opB : mat_op) (alpha : K) (A B : block2) (beta : K) (C : block2) (m : mem K) : option (mem K) :=
  gemp_exec C alpha (apply_mat_op opA (plain2 A)) (apply_mat_op opB (plain2 B)) beta m.
(** matvec.hpp 223-235: [r] is the new matrix, w.size() by v.size(). *)
Definition kron1 (r : block2) (alpha : K) (v w : arg1) (m : mem K) : option (mem K) :=
  down (alen w) (fun i m => down (alen v) (fun j m =>
    x <- aget1 w m i ;; y <- aget1 v m j ;; put2 m r i j (alpha * x * y)) m) m.
(** matvec.hpp 244-263: [r] is the new matrix. *)
Definition kron2 (r : block2) (alpha : K) (v w : arg2) (m : mem K) : option (mem K) :=
  down (arows v) (fun i m => down (arows w) (fun j m => down (acols v) (fun k m => down (acols w) (fun l m =>
    x <- aget2 v m i k ;; y <- aget2 w m j l ;;
    put2 m r (j + i * arows w)%nat (l + k * acols w)%nat (alpha * x * y)) m) m) m) m.
(** matvec.hpp 292-297, 682-697: the assignment C = alpha * op(A) + beta * C,
    element by element (loop fusion). *)
Definition gems (opA : mat_op) (alpha : K) (A : block2) (beta : K) (C : block2) (m : mem K) : option (mem K) :=
  let a := apply_mat_op opA (plain2 A) in
  assert (arows a =? rows C)%nat ;; assert (acols a =? cols C)%nat ;;
  loop (fun i m => loop (fun j m =>
    x <- aget2 a m i j ;; z <- get2 m C i j ;; put2 m C i j (alpha * x + beta * z)) 0 (cols C) m) 0 (rows C) m.
(** matvec.hpp 460-476. *)
Definition cumsum1 (v w : block1) (m : mem K) : option (mem K) :=
  assert (len v =? len w)%nat ;;
  sm <- loop (fun i '(s, m) => x <- get1 m v i ;; m <- put1 m w i (s + x) ;; Some (s + x, m)) 0 (len v) (0, m) ;;
  Some (snd sm).
(** matvec.hpp 485-521, d = 0 and d = 1. *)
Definition cumsum2 (d : nat) (v w : block2) (m : mem K) : option (mem K) :=
  match d with
  | 0%nat => loop (fun r m =>
      sm <- loop (fun i '(s, m) => x <- get2 m v r i ;; m <- put2 m w r i (s + x) ;; Some (s + x, m)) 0 (cols v) (0, m) ;; Some (snd sm)) 0 (rows v) m
  | 1%nat => loop (fun n m =>
      sm <- loop (fun i '(s, m) => x <- get2 m v i n ;; m <- put2 m w i n (s + x) ;; Some (s + x, m)) 0 (rows v) (0, m) ;; Some (snd sm)) 0 (cols v) m
  | _ => Some m
  end.
(** matvec.hpp 532-562; [expj x] stands for exp(complex(0, x)).  Returns the
    phase for the next frame. *)
Definition of_nat (n : nat) : K := sum (fun _ => r1) n.
Definition modulate (expj : K -> K) (v : arg1) (nu phi : K) (w : block1) (m : mem K) : option (K * mem K) :=
  assert (alen v =? len w)%nat ;;
  m <- down (alen v) (fun i m => x <- aget1 v m i ;; put1 m w i (x * expj (of_nat i * nu + phi))) m ;;
  Some (of_nat (alen v) * nu + phi, m).

(** matvec_prod.hpp 59-73 (conjugate = false) and 87-101 (true). *)
Definition prod_mm (conjugate : bool) (r : block2) (a b : arg2) (m : mem K) : option (mem K) :=
  loop (fun i m => loop (fun j m =>
    s <- loop (fun k s => x <- aget2 a m i k ;; y <- aget2 b m k j ;; Some (s + x * (if conjugate then conj y else y))) 0 (acols a) 0 ;;
    put2 m r i j s) 0 (cols r) m) 0 (rows r) m.
(** matvec_prod.hpp 116-129. *)
Definition prod_mv (r : block1) (a : arg2) (b : arg1) (m : mem K) : option (mem K) :=
  loop (fun i m =>
    s <- loop (fun k s => x <- aget2 a m i k ;; y <- aget1 b m k ;; Some (s + x * y)) 0 (acols a) 0 ;; put1 m r i s) 0 (len r) m.
(** matvec_prod.hpp 144-157. *)
Definition prod_vm (r : block1) (a : arg1) (b : arg2) (m : mem K) : option (mem K) :=
  loop (fun i m =>
    s <- loop (fun k s => x <- aget1 a m k ;; y <- aget2 b m k i ;; Some (s + x * y)) 0 (arows b) 0 ;; put1 m r i s) 0 (len r) m.
(** r = prod(a, b) and its variants: the product is evaluated directly into
    the destination (ovxx/assign/rbo.hpp 34-50, matvec_prod.hpp 230-256).
    The size check of the assignment is the first line. *)
Definition assign_prod (conjugate : bool) (r : block2) (a b : arg2) (m : mem K) : option (mem K) :=
  assert (rows r =? arows a)%nat ;; assert (cols r =? acols b)%nat ;; prod_mm conjugate r a b m.
(** matvec_prod.hpp 260-276. *)
Definition prod (r a b : block2) (m : mem K) : option (mem K) :=
  assert (cols a =? rows b)%nat ;; assign_prod false r (plain2 a) (plain2 b) m.
(** matvec_prod.hpp 389-408, 411-426, 429-446. *)
Definition prodh (r a b : block2) := assign_prod true r (plain2 a) (trans2 (plain2 b)).
Definition prodj (r a b : block2) := assign_prod true r (plain2 a) (plain2 b).
Definition prodt (r a b : block2) := assign_prod false r (plain2 a) (trans2 (plain2 b)).
(** matvec_prod.hpp 278-312. *)
Definition prod_matvec (r : block1) (a : block2) (b : block1) (m : mem K) : option (mem K) :=
  assert (cols a =? len b)%nat ;; assert (len r =? rows a)%nat ;; prod_mv r (plain2 a) (plain1 b) m.
Definition prod_vecmat (r a : block1) (b : block2) (m : mem K) : option (mem K) :=
  assert (len a =? rows b)%nat ;; assert (len r =? cols b)%nat ;; prod_vm r (plain1 a) (plain2 b) m.

(** * Specification *)
(** Element (i,j) of op(A), and the shape of op(A). *)
Definition op_elem (o : mat_op) (a : nat -> nat -> K) (i j : nat) : K :=
  match o with mat_ntrans => a i j | mat_trans => a j i | mat_herm => conj (a j i) | mat_conj => conj (a i j) end.
Definition op_rows (o : mat_op) (b : block2) : nat := match o with mat_ntrans | mat_conj => rows b | _ => cols b end.
Definition op_cols (o : mat_op) (b : block2) : nat := match o with mat_ntrans | mat_conj => cols b | _ => rows b end.
(** Only the elements of [b] changed. *)
Definition only2 (b : block2) (m m' : mem K) : Prop := forall a, (forall i j, (i < rows b)%nat -> (j < cols b)%nat -> addr2 b i j <> a) -> m' a = m a.
Definition only1 (b : block1) (m m' : mem K) : Prop := forall a, (forall i, (i < len b)%nat -> addr1 b i <> a) -> m' a = m a.
(** Two matrices are apart or the same: shared addresses only at equal indices. *)
Definition apart_or_same2 (a b : block2) : Prop := forall i j k l, (i < rows a)%nat -> (j < cols a)%nat -> (k < rows b)%nat -> (l < cols b)%nat -> addr2 a i j = addr2 b k l -> i = k /\ j = l.
(** No shared addresses between a matrix and a vector. *)
Definition disjoint21 (a : block2) (b : block1) : Prop := forall i j k, (i < rows a)%nat -> (j < cols a)%nat -> (k < len b)%nat -> addr2 a i j <> addr1 b k.
Definition apart_or_same1 (a b : block1) : Prop := forall i k, (i < len a)%nat -> (k < len b)%nat -> addr1 a i = addr1 b k -> i = k.
End Matvec.
