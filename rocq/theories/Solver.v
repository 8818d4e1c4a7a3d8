(** * Linear solvers on top of LAPACK

    Model of src/ovxx/lapack/{qr,lu,cholesky}.hpp and of
    src/vsip/impl/solver/{qr,lu,cholesky,llsqsol,covsol}.hpp: the classes
    qrd, lud and chold and the functions llsqsol and covsol, as far as they
    copy the operands in and out, choose the LAPACK routine and its flags and
    leading dimensions, and combine the results.

    Simplifications: exact arithmetic over a commutative ring with a
    conjugation [conj] (the identity for real types) and a partial division;
    sizes fit the int arguments; local (not distributed) operands; work arrays
    are left out; one configuration of the library, with LAPACK as the only
    back end. *)
From Coq Require Import ZArith List Lia Bool Arith.
From Verif Require Import Base Freqswap Conv Matvec.
Import ListNotations.
Local Open Scope nat_scope.

Section Solver.
Context {K : CRing} (conj : K -> K) (kdiv : K -> K -> option K).
Local Open Scope cr_scope.
Implicit Types m : mem K.

(** ** Column-major work buffers *)

(** Strided<2, T, Layout<2, col2_type, dense, array>>: element (i,j) of a buffer with leading
    dimension [ld]. *)
Notation buf := (list K).
Definition elt (l : buf) (ld i j : nat) : K := nth (i + j * ld)%nat l 0.
(** The M by N matrix lies inside the buffer. *)
Definition fits (l : buf) (ld M N : nat) : bool := ((M =? 0) || (N =? 0) || ((N - 1) * ld + M <=? length l))%nat.
(** The buffer after the M by N matrix was overwritten. *)
Definition update (l : buf) (ld M N : nat) (f : nat -> nat -> K) : buf :=
  map (fun p => if ((p mod ld <? M) && (p / ld <? N))%nat then f (p mod ld)%nat (p / ld)%nat else nth p l 0) (seq 0 (length l)).

(** parallel::assign_local (parallel/assign_local.hpp 36-44, 100-108) of a matrix to a
    new buffer, and of a buffer to a matrix: element by element over the size
    of the left-hand side, each side with its own strides, without a test of the
    sizes. *)
Definition copy_in (M N : nat) (v : block2) m : option buf :=
  loop (fun i l => loop (fun j l => x <- mload m (addr2 v i j) ;; bput l (i + j * M)%nat x) 0 N l) 0 M (repeat 0 (M * N)%nat).
Definition copy_out (l : buf) (ld : nat) (x : block2) m : option (mem K) :=
  loop (fun i m => loop (fun j m => y <- bget l (i + j * ld)%nat ;; put2 m x i j y) 0 (cols x) m) 0 (rows x) m.

(** ** LAPACK and BLAS routines

    Not code of this repository: the documented behaviour of the routines, in
    exact arithmetic.  A wrong argument is reported through info (or xerbla)
    and ends the program: None. *)
Inductive tflag := TN | TT | TC.
Definition delta (i j : nat) : K := if (i =? j)%nat then 1 else 0.
Definition mmul (d : nat) (X Y : nat -> nat -> K) : nat -> nat -> K := fun i j => sum (fun k => X i k * Y k j) d.
Definition adj (X : nat -> nat -> K) : nat -> nat -> K := fun i j => conj (X j i).
(** Reflector vector [i]: 0 above the diagonal, 1 on it, stored below it. *)
Definition rvec (a : buf) (lda i r : nat) : K := if (r <? i)%nat then 0 else if (r =? i)%nat then 1 else elt a lda r i.
Definition refl (a : buf) (lda : nat) (tau : list K) (i : nat) : nat -> nat -> K :=
  fun r c => delta r c - nth i tau 0 * rvec a lda i r * conj (rvec a lda i c).
(** Q = H(0) H(1) ... H(k-1), of order [d]. *)
Fixpoint qprod (d : nat) (a : buf) (lda : nat) (tau : list K) (k : nat) : nat -> nat -> K :=
  match k with 0 => delta | S k' => mmul d (qprod d a lda tau k') (refl a lda tau k') end.
(** xORMQR (real) and xUNMQR (complex): C = op(Q) C or C op(Q).  The real
    routines know only 'n' and 't', the complex ones only 'n' and 'c'. *)
Definition mqr (cplx left : bool) (t : tflag) (M N k : nat) (a : buf) (lda : nat) (tau : list K) (c : buf) (ldc : nat) : option buf :=
  let d := if left then M else N in
  assert (match t with TN => true | TT => negb cplx | TC => cplx end) ;;
  assert (k <=? d)%nat ;; assert (Nat.max 1 d <=? lda)%nat ;; assert (Nat.max 1 M <=? ldc)%nat ;;
  assert (fits a lda d k) ;; assert (fits c ldc M N) ;; assert (k <=? length tau)%nat ;;
  let Q := match t with TN => qprod d a lda tau k | _ => adj (qprod d a lda tau k) end in
  Some (update c ldc M N (fun i j =>
    if left then sum (fun r => Q i r * elt c ldc r j) M else sum (fun r => elt c ldc i r * Q r j) N)).

(** Forward substitution with a lower-triangular matrix. *)
Definition fsub (T : nat -> nat -> K) (unit : bool) (rhs : nat -> K) (n : nat) : option (list K) :=
  loop (fun i xs =>
    let s := rhs i - sum (fun k => T i k * nth k xs 0) i in
    y <- (if unit then Some s else kdiv s (T i i)) ;; Some (xs ++ [y])) 0 n [].
(** Backward substitution with an upper-triangular one. *)
Definition bsub (T : nat -> nat -> K) (unit : bool) (rhs : nat -> K) (n : nat) : option (list K) :=
  xs <- fsub (fun i k => T (n - 1 - i)%nat (n - 1 - k)%nat) unit (fun i => rhs (n - 1 - i)%nat) n ;; Some (rev xs).
Definition opm (t : tflag) (X : nat -> nat -> K) : nat -> nat -> K :=
  match t with TN => X | TT => fun i j => X j i | TC => adj X end.
(** xTRSM with side = 'l': solves op(A) X = alpha B. *)
Definition trsm (upper : bool) (t : tflag) (unit : bool) (M N : nat) (alpha : K) (a : buf) (lda : nat) (b : buf) (ldb : nat) : option buf :=
  assert (Nat.max 1 M <=? lda)%nat ;; assert (Nat.max 1 M <=? ldb)%nat ;; assert (fits a lda M M) ;; assert (fits b ldb M N) ;;
  let T := opm t (elt a lda) in
  let up := match t with TN => upper | _ => negb upper end in
  cs <- loop (fun j cs =>
          x <- (if up then bsub else fsub) T unit (fun i => alpha * elt b ldb i j) M ;; Some (cs ++ [x])) 0 N [] ;;
  Some (update b ldb M N (fun i j => nth i (nth j cs []) 0)).

(** Row interchanges: row [i] with row [p i], for i = 0, ..., n-1, and in the
    opposite order (xLASWP).  (Pivot indices counted from 0.) *)
Definition swap (i p r : nat) : nat := if (r =? i)%nat then p else if (r =? p)%nat then i else r.
Fixpoint swaps (p : list nat) (n : nat) (f : nat -> nat -> K) : nat -> nat -> K :=
  match n with 0 => f | S k => fun r => swaps p k f (swap k (nth k p 0%nat) r) end.
Fixpoint swaps_back (p : list nat) (n : nat) (f : nat -> nat -> K) : nat -> nat -> K :=
  match n with 0 => f | S k => swaps_back p k (fun r => f (swap k (nth k p 0%nat) r)) end.
(** xGETRS. *)
Definition getrs (t : tflag) (n nrhs : nat) (a : buf) (lda : nat) (piv : list nat) (b : buf) (ldb : nat) : option buf :=
  assert (Nat.max 1 n <=? lda)%nat ;; assert (Nat.max 1 n <=? ldb)%nat ;; assert (fits a lda n n) ;; assert (fits b ldb n nrhs) ;;
  assert (forallb (fun p => p <? n)%nat piv) ;; assert (length piv =? n)%nat ;;
  match t with
  | TN =>
      let b := update b ldb n nrhs (swaps piv n (elt b ldb)) in
      b <- trsm false TN true n nrhs 1 a lda b ldb ;; trsm true TN false n nrhs 1 a lda b ldb
  | _ =>
      b <- trsm true t false n nrhs 1 a lda b ldb ;; b <- trsm false t true n nrhs 1 a lda b ldb ;;
      Some (update b ldb n nrhs (swaps_back piv n (elt b ldb)))
  end.
(** xPOTRS. *)
Definition potrs (upper : bool) (n nrhs : nat) (a : buf) (lda : nat) (b : buf) (ldb : nat) : option buf :=
  if upper
  then b <- trsm true TC false n nrhs 1 a lda b ldb ;; trsm true TN false n nrhs 1 a lda b ldb
  else b <- trsm false TN false n nrhs 1 a lda b ldb ;; trsm false TC false n nrhs 1 a lda b ldb.

(** The factorizations are arbitrary functions here; what they are documented
    to return is stated below.  None: the program ends. *)
Context (geqrf : nat -> nat -> buf -> nat -> option (buf * list K)).
Context (getrf : nat -> buf -> nat -> option (buf * list nat * bool)).
Context (potrf : bool -> nat -> buf -> nat -> option (buf * bool)).

(** ** qrd (lapack/qr.hpp) *)

Inductive storage := nosaveq | saveq1 | saveq.
Record qrd := { q_rows : nat; q_cols : nat; q_store : storage; q_data : buf; q_tau : list K }.
(** 35-48. *)
Definition qrd_new (r c : nat) (s : storage) : option qrd :=
  assert ((0 <? r) && (0 <? c) && (c <=? r))%nat ;;
  Some {| q_rows := r; q_cols := c; q_store := s; q_data := repeat 0 (r * c)%nat; q_tau := repeat 0 c |}.
(** 82-97. *)
Definition qrd_decompose (q : qrd) (a : block2) m : option qrd :=
  assert ((rows a =? q_rows q) && (cols a =? q_cols q))%nat ;;
  d <- copy_in (q_rows q) (q_cols q) a m ;;
  r <- geqrf (q_rows q) (q_cols q) d (q_rows q) ;;
  Some {| q_rows := q_rows q; q_cols := q_cols q; q_store := q_store q; q_data := fst r; q_tau := snd r |}.
(** The flag for an operation: 123-136, 187-201. *)
Definition flag_of (tr : mat_op) : tflag := match tr with mat_trans => TT | mat_herm => TC | _ => TN end.
Definition is_trans (tr : mat_op) : bool := match tr with mat_trans | mat_herm => true | _ => false end.
(** 99-177. *)
Definition qrd_prodq (cplx : bool) (tr : mat_op) (lside : bool) (q : qrd) (b x : block2) m : option (mem K) :=
  assert (match q_store q with nosaveq => false | _ => true end) ;;
  let w := match q_store q with saveq1 => q_cols q | _ => q_rows q end in
  let qr := if is_trans tr then w else q_rows q in
  let qc := if is_trans tr then q_rows q else w in
  assert (if lside then (rows b =? qc) && (rows x =? qr) && (cols b =? cols x)
          else (cols b =? qr) && (cols x =? qc) && (rows b =? rows x))%nat ;;
  b_int <- copy_in (rows b) (cols b) b m ;;
  c <- mqr cplx lside (flag_of tr) (rows b) (cols b) (q_cols q) (q_data q) (q_rows q) (q_tau q) b_int (rows b) ;;
  copy_out c (rows b) x m.
(** 179-221. *)
Definition qrd_rsol (tr : mat_op) (q : qrd) (b : block2) (alpha : K) (x : block2) m : option (mem K) :=
  assert (rows b =? q_cols q)%nat ;; assert (rows b =? rows x)%nat ;; assert (cols b =? cols x)%nat ;;
  b_int <- copy_in (rows b) (cols b) b m ;;
  c <- trsm true (flag_of tr) false (rows b) (cols b) alpha (q_data q) (q_rows q) b_int (rows b) ;;
  copy_out c (rows b) x m.
(** blas::traits<T>::trans (lapack/blas.hpp 188-216). *)
Definition traits_trans (cplx : bool) : tflag := if cplx then TC else TT.
(** 223-267. *)
Definition qrd_covsol (cplx : bool) (q : qrd) (b x : block2) m : option (mem K) :=
  assert (rows b =? q_cols q)%nat ;;
  b_int <- copy_in (rows b) (cols b) b m ;;
  c <- trsm true (traits_trans cplx) false (rows b) (cols b) 1 (q_data q) (q_rows q) b_int (rows b) ;;
  c <- trsm true TN false (rows b) (cols b) 1 (q_data q) (q_rows q) c (rows b) ;;
  copy_out c (rows b) x m.
(** 269-327. *)
Definition qrd_lsqsol (cplx : bool) (q : qrd) (b x : block2) m : option (mem K) :=
  assert (rows b =? q_rows q)%nat ;; assert (rows x =? q_cols q)%nat ;; assert (cols x =? cols b)%nat ;;
  c <- copy_in (q_rows q) (cols b) b m ;;
  c <- mqr cplx true (traits_trans cplx) (q_rows q) (cols b) (q_cols q) (q_data q) (q_rows q) (q_tau q) c (q_rows q) ;;
  c <- trsm true TN false (q_cols q) (cols b) 1 (q_data q) (q_rows q) c (q_rows q) ;;
  copy_out c (q_rows q) x m.

(** ** llsqsol and covsol (vsip/impl/solver) *)

(** llsqsol.hpp 26-69. *)
Definition llsqsol (cplx : bool) (a b x : block2) m : option (mem K) :=
  assert (rows b =? rows a)%nat ;; assert (rows x =? cols a)%nat ;; assert (cols x =? cols b)%nat ;;
  q <- qrd_new (rows a) (cols a) saveq1 ;; q <- qrd_decompose q a m ;; qrd_lsqsol cplx q b x m.
(** covsol.hpp 24-64; [b1] is the new matrix. *)
Definition covsol (cplx : bool) (a b x b1 : block2) m : option (mem K) :=
  assert (rows b =? cols a)%nat ;; assert (rows x =? cols a)%nat ;; assert (cols x =? cols b)%nat ;;
  q <- qrd_new (rows a) (cols a) nosaveq ;; q <- qrd_decompose q a m ;;
  m <- qrd_rsol (if cplx then mat_herm else mat_trans) q b 1 b1 m ;;
  qrd_rsol mat_ntrans q b1 1 x m.

(** ** lud (lapack/lu.hpp) *)

Record lud := { l_len : nat; l_data : buf; l_piv : list nat }.
(** 31-37. *)
Definition lud_new (n : nat) : option lud :=
  assert (0 <? n)%nat ;; Some {| l_len := n; l_data := repeat 0 (n * n)%nat; l_piv := repeat 0%nat n |}.
(** 58-68. *)
Definition lud_decompose (l : lud) (a : block2) m : option (lud * bool) :=
  assert ((rows a =? l_len l) && (cols a =? l_len l))%nat ;;
  d <- copy_in (l_len l) (l_len l) a m ;;
  r <- getrf (l_len l) d (l_len l) ;;
  Some ({| l_len := l_len l; l_data := fst (fst r); l_piv := snd (fst r) |}, snd r).
(** 70-98.  (mat_conj: trans is not initialized.) *)
Definition lud_solve (cplx : bool) (tr : mat_op) (l : lud) (b x : block2) m : option (mem K) :=
  assert (rows b =? l_len l)%nat ;; assert ((rows b =? rows x) && (cols b =? cols x))%nat ;;
  t <- match tr with
       | mat_ntrans => Some TN
       | mat_trans => Some TT
       | mat_herm => if cplx then Some TC else None
       | mat_conj => None
       end ;;
  b_int <- copy_in (rows b) (cols b) b m ;;
  c <- getrs t (l_len l) (cols b) (l_data l) (l_len l) (l_piv l) b_int (rows b) ;;
  copy_out c (rows b) x m.

(** ** chold (lapack/cholesky.hpp) *)

Record chold := { c_upper : bool; c_len : nat; c_data : buf }.
(** 31-38. *)
Definition chold_new (u : bool) (n : nat) : option chold :=
  assert (0 <? n)%nat ;; Some {| c_upper := u; c_len := n; c_data := repeat 0 (n * n)%nat |}.
(** 58-67. *)
Definition chold_decompose (c : chold) (a : block2) m : option (chold * bool) :=
  assert ((rows a =? c_len c) && (cols a =? c_len c))%nat ;;
  d <- copy_in (c_len c) (c_len c) a m ;;
  r <- potrf (c_upper c) (c_len c) d (c_len c) ;;
  Some ({| c_upper := c_upper c; c_len := c_len c; c_data := fst r |}, snd r).
(** 69-87. *)
Definition chold_solve (c : chold) (b x : block2) m : option (mem K) :=
  assert (rows b =? c_len c)%nat ;; assert ((rows b =? rows x) && (cols b =? cols x))%nat ;;
  b_int <- copy_in (rows b) (cols b) b m ;;
  d <- potrs (c_upper c) (c_len c) (cols b) (c_data c) (c_len c) b_int (rows b) ;;
  copy_out d (rows b) x m.

(** * Specification *)

(** Whether op(Q) has the sizes of Q exchanged. *)
Definition transposes (tr : mat_op) : bool :=
  match tr with mat_ntrans => false | mat_trans => true | mat_herm => true | mat_conj => false end.

(** The conjugation is an involution compatible with the ring. *)
Record conj_ok : Prop := {
  conj_add : forall x y, conj (x + y) = conj x + conj y;
  conj_mul : forall x y, conj (x * y) = conj x * conj y;
  conj_inv : forall x, conj (conj x) = x }.
(** Division: exact when it succeeds, and it succeeds for invertible divisors. *)
Record div_ok : Prop := {
  div_exact : forall a b q, kdiv a b = Some q -> q * b = a;
  div_total : forall a b u, b * u = 1 -> kdiv a b <> None }.
Definition invertible (a : K) : Prop := exists u, a * u = 1.

(** Upper triangle of the factored matrix. *)
Definition rmat (d : buf) (ld : nat) : nat -> nat -> K := fun i j => if (i <=? j)%nat then elt d ld i j else 0.
(** Unit lower triangle. *)
Definition lmat (d : buf) (ld : nat) : nat -> nat -> K := fun i j => if (j <? i)%nat then elt d ld i j else if (i =? j)%nat then 1 else 0.
(** Lower triangle. *)
Definition gmat (d : buf) (ld : nat) : nat -> nat -> K := fun i j => if (j <=? i)%nat then elt d ld i j else 0.

(** What xGEQRF is documented to return for an M by N matrix A, M >= N: Q is
    unitary and A = Q R. *)
Definition is_qr (M N : nat) (A : nat -> nat -> K) (d : buf) (tau : list K) : Prop :=
  length d = (M * N)%nat /\ length tau = N /\
  let Q := qprod M d M tau N in
  (forall i j, (i < M)%nat -> (j < M)%nat -> mmul M (adj Q) Q i j = delta i j) /\
  (forall i j, (i < M)%nat -> (j < M)%nat -> mmul M Q (adj Q) i j = delta i j) /\
  (forall i j, (i < M)%nat -> (j < N)%nat -> A i j = sum (fun k => Q i k * rmat d M k j) N).
(** ... xGETRF: the rows of A, interchanged, are L U. *)
Definition is_lu (n : nat) (A : nat -> nat -> K) (d : buf) (p : list nat) : Prop :=
  length d = (n * n)%nat /\ length p = n /\ (forall i, (i < n)%nat -> (nth i p 0 < n)%nat) /\
  forall i j, (i < n)%nat -> (j < n)%nat -> swaps p n A i j = sum (fun k => lmat d n i k * rmat d n k j) n.
(** ... xPOTRF: U^H U or L L^H has the upper (lower) triangle of A. *)
Definition is_chol (upper : bool) (n : nat) (A : nat -> nat -> K) (d : buf) : Prop :=
  length d = (n * n)%nat /\
  forall i j, (i < n)%nat -> (j < n)%nat -> (if upper then i <= j else j <= i)%nat ->
    A i j = if upper then sum (fun k => conj (rmat d n k i) * rmat d n k j) n
            else sum (fun k => gmat d n i k * conj (gmat d n j k)) n.
(** The call with the M by N matrix A, in column-major order, meets this. *)
Definition stored (M N : nat) (A : nat -> nat -> K) (d : buf) : Prop :=
  length d = (M * N)%nat /\ forall i j, (i < M)%nat -> (j < N)%nat -> elt d M i j = A i j.
Definition geqrf_for (M N : nat) (A : nat -> nat -> K) : Prop :=
  forall d, stored M N A d -> exists d' tau, geqrf M N d M = Some (d', tau) /\ is_qr M N A d' tau.
Definition getrf_for (n : nat) (A : nat -> nat -> K) : Prop :=
  forall d, stored n n A d -> exists d' p ok, getrf n d n = Some (d', p, ok) /\ is_lu n A d' p.
(** For a positive definite matrix xPOTRF succeeds. *)
Definition potrf_for (upper : bool) (n : nat) (A : nat -> nat -> K) : Prop :=
  forall d, stored n n A d -> exists d', potrf upper n d n = Some (d', true) /\ is_chol upper n A d'.

(** A has full column rank (for a square A: it is regular): it has a left inverse. *)
Definition full_column_rank (M N : nat) (A : nat -> nat -> K) : Prop :=
  exists L, forall i j, (i < N)%nat -> (j < N)%nat -> mmul M L A i j = delta i j.
(** Squared distance of the columns [j] of F and G. *)
Definition sqdist (M : nat) (F G : nat -> nat -> K) (j : nat) : K :=
  sum (fun r => conj (F r j - G r j) * (F r j - G r j)) M.
(** The operation is one of those the standard has for the type. *)
Definition op_of_type (cplx : bool) (tr : mat_op) : Prop :=
  tr = mat_ntrans \/ tr = (if cplx then mat_herm else mat_trans).
End Solver.
