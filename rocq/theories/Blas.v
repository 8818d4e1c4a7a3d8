(** * Products through BLAS

    Model of src/ovxx/lapack/blas.hpp: the evaluators that hand outer, dot and
    matrix products and gemp to a BLAS library, and the choice between them
    and the generic evaluators ([Matvec]) in
    src/ovxx/dispatcher/dispatcher.hpp.

    Simplifications: lengths and strides are assumed to fit the int arguments
    of BLAS; [ct] stands for the compile-time condition ct_valid (element
    type float, double or complex of these in interleaved storage, the same
    for all operands, direct access to all of them); the user, CUDA and C-VSIPL
    backends are taken as not available.  Exact arithmetic over a
    commutative ring, [conj] is the conjugation (identity for real types). *)
From Coq Require Import ZArith List Lia Bool Arith.
From Verif Require Import Base Fir Freqswap Conv Matvec.
Import ListNotations.
Local Open Scope nat_scope.

(** ** Views with direct access *)

(** What dda::Data reports about a vector: ptr(), stride(0), size(0). *)
Record v1 := { p1 : Z; st1 : Z; n1 : nat }.
(** ... and about a matrix; [row_order]: its order_type is row2_type. *)
Record v2 := { p2 : Z; s0 : Z; s1 : Z; nr : nat; nc : nat; row_order : bool }.

Definition blk1 (v : v1) : block1 := {| len := n1 v; addr1 := fun i => (p1 v + Z.of_nat i * st1 v)%Z |}.
Definition blk2 (v : v2) : block2 :=
  {| rows := nr v; cols := nc v; addr2 := fun i j => (p2 v + Z.of_nat i * s0 v + Z.of_nat j * s1 v)%Z; blk := 0 |}.
(** The transposed view (ovxx/expr/transposed.hpp 96-202): strides and order
    exchanged. *)
Definition tr2 (v : v2) : v2 :=
  {| p2 := p2 v; s0 := s1 v; s1 := s0 v; nr := nc v; nc := nr v; row_order := negb (row_order v) |}.

Section Blas.
Context {K : CRing} (conj : K -> K).
Local Open Scope cr_scope.
Implicit Types m : mem K.

(** ** The BLAS library

    The reference BLAS (netlib), as far as it is used: arguments are checked
    first and a wrong one ends the program (xerbla); matrices are in column
    order with a leading dimension.  Not code of this repository. *)

(** M by N matrix in column order. *)
Definition colmajor (p : Z) (ld : Z) (M N : nat) : block2 :=
  {| rows := M; cols := N; addr2 := fun i j => (p + Z.of_nat i + Z.of_nat j * ld)%Z; blk := 0 |}.
Definition ld_ok (ld : Z) (M : nat) : bool := (Z.max 1 (Z.of_nat M) <=? ld)%Z.
(** Where element [i] of a vector argument of length [n] is: with a negative
    increment BLAS takes the pointer as that of the last element. *)
Definition varg_at (p inc : Z) (n i : nat) : Z :=
  (if inc <? 0 then p - Z.of_nat (n - 1) * inc + Z.of_nat i * inc else p + Z.of_nat i * inc)%Z.
Definition inc_ok (inc : Z) : bool := negb (inc =? 0)%Z.

(** xGEMM: C = alpha op(A) op(B) + beta C, [ta], [tb]: transposed.  [beta] =
    None: the constant 0, then C is not read. *)
Definition gemm (ta tb : bool) (M N L : nat) (alpha : K) (a lda b ldb : Z) (beta : option K) (c ldc : Z) m : option (mem K) :=
  assert (ld_ok lda (if ta then L else M)) ;; assert (ld_ok ldb (if tb then N else L)) ;; assert (ld_ok ldc M) ;;
  let C := colmajor c ldc M N in
  loop (fun i m => loop (fun j m =>
    s <- loop (fun k s =>
           x <- mload m (if ta then a + Z.of_nat k + Z.of_nat i * lda else a + Z.of_nat i + Z.of_nat k * lda)%Z ;;
           y <- mload m (if tb then b + Z.of_nat j + Z.of_nat k * ldb else b + Z.of_nat k + Z.of_nat j * ldb)%Z ;;
           Some (s + x * y)) 0 L 0 ;;
    match beta with
    | None => put2 m C i j (alpha * s)
    | Some be => z <- get2 m C i j ;; put2 m C i j (alpha * s + be * z)
    end) 0 N m) 0 M m.

(** xGEMV with trans = 'n', beta = 0: y = alpha A x. *)
Definition gemv (M N : nat) (alpha : K) (a lda x incx y incy : Z) m : option (mem K) :=
  assert (ld_ok lda M) ;; assert (inc_ok incx) ;; assert (inc_ok incy) ;;
  let Y := {| len := M; addr1 := varg_at y incy M |} in
  loop (fun i m =>
    s <- loop (fun k s =>
           u <- mload m (a + Z.of_nat i + Z.of_nat k * lda)%Z ;;
           w <- mload m (varg_at x incx N k) ;; Some (s + u * w)) 0 N 0 ;;
    put1 m Y i (alpha * s)) 0 M m.

(** xGER / xGERU ([c] = false) and xGERC (true): A = A + alpha x y^T (y^H). *)
Definition ger (c : bool) (M N : nat) (alpha : K) (x incx y incy a lda : Z) m : option (mem K) :=
  assert (ld_ok lda M) ;; assert (inc_ok incx) ;; assert (inc_ok incy) ;;
  let A := colmajor a lda M N in
  loop (fun i m => loop (fun j m =>
    u <- mload m (varg_at x incx M i) ;; w <- mload m (varg_at y incy N j) ;;
    z <- get2 m A i j ;; put2 m A i j (z + alpha * u * (if c then conj w else w))) 0 N m) 0 M m.

(** xDOT, xDOTU ([c] = false), xDOTC (true: the first vector conjugated). *)
Definition dot_lib (c : bool) (n : nat) (x incx y incy : Z) m : option K :=
  loop (fun i s =>
    u <- mload m (varg_at x incx n i) ;; w <- mload m (varg_at y incy n i) ;;
    Some (s + (if c then conj u else u) * w)) 0 n 0.

(** ** Wrappers (blas.hpp 49-86) *)

(** [if (incx < 0) x += incx * (n-1)]. *)
Definition start_of (p inc : Z) (n : nat) : Z := (if inc <? 0 then p + inc * (Z.of_nat n - 1) else p)%Z.
(** OVXX_BLAS_DOT (49-63). *)
Definition dot_real (n : nat) (x incx y incy : Z) m : option K :=
  dot_lib false n (start_of x incx n) incx (start_of y incy n) incy m.
(** OVXX_BLAS_CDOT (65-86): the result goes through a variable of type float
    __complex__, for double precision too; [narrow] is that conversion. *)
Definition dot_cplx (narrow : K -> K) (double : bool) (c : bool) (n : nat) (x incx y incy : Z) m : option K :=
  r <- dot_lib c n (start_of x incx n) incx (start_of y incy n) incy m ;;
  Some (if double then narrow r else r).

(** ** Evaluators *)

(** dot (346-372). *)
Definition dot_blas (a b : v1) m : option K :=
  assert (n1 a =? n1 b)%nat ;; dot_real (n1 a) (p1 a) (st1 a) (p1 b) (st1 b) m.
Definition cdot_blas (narrow : K -> K) (double : bool) (a b : v1) m : option K :=
  assert (n1 a =? n1 b)%nat ;; dot_cplx narrow double false (n1 a) (p1 a) (st1 a) (p1 b) (st1 b) m.
(** dot(a, conj(b)) (374-405): operands exchanged. *)
Definition cvjdot_blas (narrow : K -> K) (double : bool) (a b : v1) m : option K :=
  assert (n1 a =? n1 b)%nat ;; dot_cplx narrow double true (n1 a) (p1 b) (st1 b) (p1 a) (st1 a) m.

(** outer for real alpha (224-277): r = 0, then xGER.  The leading
    dimension passed is the number of columns (rows) of r. *)
Definition fill0 (r : v2) m : option (mem K) :=
  loop (fun i m => loop (fun j m => put2 m (blk2 r) i j 0) 0 (nc r) m) 0 (nr r) m.
Definition outer_rt (a b : v1) : bool := (st1 a =? 1)%Z && (st1 b =? 1)%Z.
Definition outer_blas (r : v2) (alpha : K) (a b : v1) m : option (mem K) :=
  assert (n1 a =? nr r)%nat ;; assert (n1 b =? nc r)%nat ;;
  m <- fill0 r m ;;
  if row_order r
  then ger false (n1 b) (n1 a) alpha (p1 b) (st1 b) (p1 a) (st1 a) (p2 r) (Z.of_nat (nc r)) m
  else ger false (n1 a) (n1 b) alpha (p1 a) (st1 a) (p1 b) (st1 b) (p2 r) (Z.of_nat (nr r)) m.
(** outer for complex alpha (279-344): the second vector is conjugated. *)
Definition outerc_blas (r : v2) (alpha : K) (a b : v1) m : option (mem K) :=
  assert (n1 a =? nr r)%nat ;; assert (n1 b =? nc r)%nat ;;
  m <- fill0 r m ;;
  if row_order r
  then
    m <- ger true (n1 b) (n1 a) 1 (p1 b) (st1 b) (p1 a) (st1 a) (p2 r) (Z.of_nat (nc r)) m ;;
    loop (fun i m => loop (fun j m =>
      x <- get2 m (blk2 r) i j ;; put2 m (blk2 r) i j (alpha * conj x)) 0 (nc r) m) 0 (nr r) m
  else ger true (n1 a) (n1 b) alpha (p1 a) (st1 a) (p1 b) (st1 b) (p2 r) (Z.of_nat (nr r)) m.

(** matrix times vector (407-474). *)
Definition mv_rt (a : v2) (b : v1) : bool :=
  if row_order a then (s1 a =? 1)%Z && (st1 b =? 1)%Z else (s0 a =? 1)%Z.
Definition mv_blas (r : v1) (a : v2) (b : v1) m : option (mem K) :=
  assert (nc a =? n1 b)%nat ;;
  if row_order a
  then gemm false false 1 (nr a) (nc a) 1 (p1 b) (st1 b) (p2 a) (Z.of_nat (nc a)) None (p1 r) (st1 r) m
  else gemv (nr a) (nc a) 1 (p2 a) (s1 a) (p1 b) (st1 b) (p1 r) (st1 r) m.
(** vector times matrix (476-544). *)
Definition vm_rt (a : v1) (b : v2) : bool :=
  if row_order b then (s1 b =? 1)%Z else (s0 b =? 1)%Z && (st1 a =? 1)%Z.
Definition vm_blas (r : v1) (a : v1) (b : v2) m : option (mem K) :=
  assert (n1 a =? nr b)%nat ;;
  if row_order b
  then gemv (nc b) (nr b) 1 (p2 b) (s0 b) (p1 a) (st1 a) (p1 r) (st1 r) m
  else gemm false false 1 (nc b) (nr b) 1 (p1 a) (st1 a) (p2 b) (Z.of_nat (nr b)) None (p1 r) (st1 r) m.

(** matrix times matrix (546-633) and gemp (635-720). *)
Definition mm_rt (a b : v2) : bool :=
  ((if row_order a then s1 a else s0 a) =? 1)%Z && ((if row_order b then s1 b else s0 b) =? 1)%Z.
Definition lead (v : v2) : Z := if row_order v then s0 v else s1 v.
Definition mm_blas (r : v2) (alpha : K) (a b : v2) (beta : option K) m : option (mem K) :=
  if row_order r
  then gemm (negb (row_order b)) (negb (row_order a)) (nc b) (nr a) (nc a) alpha (p2 b) (lead b) (p2 a) (lead a) beta (p2 r) (s0 r) m
  else gemm (row_order a) (row_order b) (nr a) (nc b) (nc a) alpha (p2 a) (lead a) (p2 b) (lead b) beta (p2 r) (s1 r) m.

(** ** Dispatch (dispatcher.hpp 95-109, matvec_prod.hpp 28-35,
    matvec.hpp 266-289)

    The BLAS evaluator if it is valid at compile time and at run time, and the
    generic one otherwise. *)
Definition prod_mm_d (ct : bool) (r a b : v2) m : option (mem K) :=
  assert (nc a =? nr b)%nat ;; assert (nr r =? nr a)%nat ;; assert (nc r =? nc b)%nat ;;
  if ct && mm_rt a b then mm_blas r 1 a b None m
  else prod_mm conj false (blk2 r) (plain2 (blk2 a)) (plain2 (blk2 b)) m.
Definition prod_mv_d (ct : bool) (r : v1) (a : v2) (b : v1) m : option (mem K) :=
  assert (nc a =? n1 b)%nat ;; assert (n1 r =? nr a)%nat ;;
  if ct && mv_rt a b then mv_blas r a b m else prod_mv (blk1 r) (plain2 (blk2 a)) (plain1 (blk1 b)) m.
Definition prod_vm_d (ct : bool) (r a : v1) (b : v2) m : option (mem K) :=
  assert (n1 a =? nr b)%nat ;; assert (n1 r =? nc b)%nat ;;
  if ct && vm_rt a b then vm_blas r a b m else prod_vm (blk1 r) (plain1 (blk1 a)) (plain2 (blk2 b)) m.
(** gemp: op(A) is A or its transposed view; a conjugated operand has no
    direct access, so the generic evaluator takes it. *)
Definition is_conj (o : mat_op) : bool := match o with mat_herm | mat_conj => true | _ => false end.
Definition op_view (o : mat_op) (v : v2) : v2 := match o with mat_trans => tr2 v | _ => v end.
Definition gemp_d (ct : bool) (opA opB : mat_op) (alpha : K) (A B : v2) (beta : K) (C : v2) m : option (mem K) :=
  let a := op_view opA A in let b := op_view opB B in
  if ct && negb (is_conj opA) && negb (is_conj opB) && mm_rt a b then mm_blas C alpha a b (Some beta) m
  else gemp conj opA opB alpha (blk2 A) (blk2 B) beta (blk2 C) m.
Definition outer_d (ct cplx : bool) (r : v2) (alpha : K) (a b : v1) m : option (mem K) :=
  if ct && outer_rt a b then (if cplx then outerc_blas r alpha a b m else outer_blas r alpha a b m)
  else outer conj cplx (blk2 r) alpha (plain1 (blk1 a)) (plain1 (blk1 b)) m.

(** * Specification *)

(** The rows (row order) or columns (column order) of [v] do not overlap and
    follow each other upwards: what BLAS asks of a leading dimension. *)
Definition blas_layout (v : v2) : Prop := (Z.max 1 (Z.of_nat (if row_order v then nc v else nr v)) <= lead v)%Z.
(** Neighbours in a row (row order) or column (column order) are neighbours in
    memory. *)
Definition unit_stride (v : v2) : Prop := (if row_order v then s1 v else s0 v) = 1%Z.
(** A newly allocated matrix. *)
Definition dense2 (v : v2) : Prop :=
  unit_stride v /\ lead v = Z.of_nat (if row_order v then nc v else nr v).
End Blas.
