(** * Singular value decomposition on top of LAPACK

    Model of src/ovxx/lapack/svd.hpp (class svd) and of
    src/vsip/impl/solver/svd.hpp (the by-reference class, which forwards, and the by-value class,
    which makes the result), with the same simplifications as Solver.v: exact arithmetic over a commutative
    ring with a conjugation, local operands, no work arrays; singular values are
    elements of that ring. *)
From Coq Require Import ZArith List Lia Bool Arith.
From Verif Require Import Base Freqswap Conv Matvec Solver.
Import ListNotations.
Local Open Scope nat_scope.

Section Svd.
Context {K : CRing} (conj : K -> K).
Local Open Scope cr_scope.
Implicit Types m : mem K.
Notation buf := (list K).

(** xGEBRD, xORGBR/xUNGBR (first argument: 'Q' or 'P') and xBDSQR are arbitrary functions here; what they are
    documented to return is stated below.  gebrd M N A lda: A, d, e, tauq, taup; gbr vect M N k A lda tau: A;
    bdsqr upper n ncvt nru d e vt ldvt u ldu: d, vt, u.  None: the program ends
    (flapack.hpp 166-235). *)
Inductive vect := VQ | VP.
Context (gebrd : nat -> nat -> buf -> nat -> option (buf * list K * list K * list K * list K)).
Context (gbr : vect -> nat -> nat -> nat -> buf -> nat -> list K -> option buf).
Context (bdsqr : bool -> nat -> nat -> nat -> list K -> list K -> buf -> nat -> buf -> nat -> option (list K * buf * buf)).

(** storage_type, vsip/support.hpp. *)
Inductive uvstorage := uvnos | uvpart | uvfull.
(** svd.hpp 198-214: q_ is the column-major buffer of U, pt_ that of V'. *)
Record svd := { s_m : nat; s_n : nat; s_ust : uvstorage; s_vst : uvstorage; s_q : buf; s_pt : buf }.
Definition s_p (s : svd) : nat := Nat.min (s_m s) (s_n s).
(** select_dim, 216-221. *)
Definition select_dim (st : uvstorage) (full part : nat) : nat := match st with uvfull => full | uvpart => part | uvnos => 0 end.
(** 223-246. *)
Definition svd_new (M N : nat) (ust vst : uvstorage) : option svd :=
  assert ((0 <? M) && (0 <? N))%nat ;;
  let p := Nat.min M N in
  Some {| s_m := M; s_n := N; s_ust := ust; s_vst := vst;
          s_q := repeat 0 (select_dim ust M M * select_dim ust M p)%nat;
          s_pt := repeat 0 (select_dim vst N p * select_dim vst N N)%nat |}.
(** dst(Domain<2>(M, N)) = src(Domain<2>(M, N)) of column-major buffers. *)
Definition sub_assign (dst : buf) (ldd M N : nat) (src : buf) (lds : nat) : option buf :=
  assert fits dst ldd M N ;; assert fits src lds M N ;; Some (update dst ldd M N (elt src lds)).
Definition saved (st : uvstorage) : bool := match st with uvnos => false | _ => true end.
(** 312-334: Q. *)
Definition make_q (s : svd) (data tauq : buf) : option buf :=
  if saved (s_ust s) then
    let cols := match s_ust s with uvfull => s_m s | _ => s_p s end in
    q <- (if (s_n s <=? s_m s)%nat then sub_assign (s_q s) (s_m s) (s_m s) (s_n s) data (s_m s)
          else assert (cols =? s_m s)%nat ;; sub_assign (s_q s) (s_m s) (s_m s) (s_m s) data (s_m s)) ;;
    gbr VQ (s_m s) cols (s_n s) q (s_m s) tauq
  else Some (s_q s).
(** 337-357: P'. *)
Definition make_pt (s : svd) (data taup : buf) : option buf :=
  if saved (s_vst s) then
    let rows := match s_vst s with uvfull => s_n s | _ => s_p s end in
    pt <- (if (s_n s <=? s_m s)%nat then assert (rows =? s_n s)%nat ;; sub_assign (s_pt s) rows (s_n s) (s_n s) data (s_m s)
           else sub_assign (s_pt s) rows (s_m s) (s_n s) data (s_m s)) ;;
    gbr VP rows (s_n s) (s_m s) pt rows taup
  else Some (s_pt s).
(** decompose, 276-408.  The leading dimensions are those of q_ and pt_, or 1. *)
Definition svd_decompose (s : svd) (a : block2) (dest : block1) m : option (svd * mem K) :=
  assert ((rows a =? s_m s) && (cols a =? s_n s))%nat ;; assert (len dest =? s_p s)%nat ;;
  data <- copy_in (s_m s) (s_n s) a m ;;
  r <- gebrd (s_m s) (s_n s) data (s_m s) ;;
  let '(data, b_d, b_e, tauq, taup) := r in
  q <- make_q s data tauq ;;
  pt <- make_pt s data taup ;;
  let nru := if saved (s_ust s) then s_m s else 0%nat in
  let q_ld := if saved (s_ust s) then s_m s else 1%nat in
  let ncvt := if saved (s_vst s) then s_n s else 0%nat in
  let pt_ld := match s_vst s with uvnos => 1%nat | uvpart => s_p s | uvfull => s_n s end in
  r <- bdsqr (s_n s <=? s_m s)%nat (s_p s) ncvt nru b_d b_e pt pt_ld q q_ld ;;
  let '(b_d, pt, q) := r in
  m <- loop (fun i m => x <- bget b_d i ;; put1 m dest i x) 0 (s_p s) m ;;
  Some ({| s_m := s_m s; s_n := s_n s; s_ust := s_ust s; s_vst := s_vst s; s_q := q; s_pt := pt |}, m).

(** A buffer with leading dimension [ld] as an operand. *)
Definition bufarg (l : buf) (ld M N : nat) : @arg2 K := {| arows := M; acols := N; aget2 := fun _ i j => bget l (i + j * ld)%nat |}.
Definition q_arg (s : svd) : arg2 := bufarg (s_q s) (s_m s) (select_dim (s_ust s) (s_m s) (s_m s)) (select_dim (s_ust s) (s_m s) (s_p s)).
Definition pt_arg (s : svd) : arg2 :=
  let r := select_dim (s_vst s) (s_n s) (s_p s) in bufarg (s_pt s) r r (select_dim (s_vst s) (s_n s) (s_n s)).
(** matvec.hpp 302-342. *)
Definition trans_or_herm (cplx : bool) (a : arg2) : arg2 := if cplx then conj2 conj (trans2 a) else trans2 a.
(** x = prod(a, b) with operands that are views: matvec_prod.hpp 230-276. *)
Definition prod_args (x : block2) (a b : arg2) m : option (mem K) :=
  assert (acols a =? arows b)%nat ;; assign_prod conj false x a b m.
(** prod_uv, 27-75 (real) and 77-125 (complex). *)
Definition prod_uv (cplx : bool) (tr : mat_op) (lside : bool) (uv : arg2) (b x : block2) m : option (mem K) :=
  match tr with
  | mat_ntrans =>
      if lside then
        assert (rows b =? acols uv)%nat ;; assert (rows x =? arows uv)%nat ;; assert (cols b =? cols x)%nat ;; prod_args x uv (plain2 b) m
      else
        assert (cols b =? arows uv)%nat ;; assert (cols x =? acols uv)%nat ;; assert (rows b =? rows x)%nat ;; prod_args x (plain2 b) uv m
  | mat_trans | mat_herm =>
      assert (match tr with mat_herm => cplx | _ => negb cplx end) ;;
      let t := if cplx then conj2 conj (trans2 uv) else trans2 uv in
      if lside then
        assert (rows b =? arows uv)%nat ;; assert (rows x =? acols uv)%nat ;; assert (cols b =? cols x)%nat ;; prod_args x t (plain2 b) m
      else
        assert (cols b =? acols uv)%nat ;; assert (cols x =? arows uv)%nat ;; assert (rows b =? rows x)%nat ;; prod_args x (plain2 b) t m
  | mat_conj => None
  end.
(** 148-166. *)
Definition svd_produ (cplx : bool) (tr : mat_op) (lside : bool) (s : svd) (b x : block2) m : option (mem K) := prod_uv cplx tr lside (q_arg s) b x m.
Definition svd_prodv (cplx : bool) (tr : mat_op) (lside : bool) (s : svd) (b x : block2) m : option (mem K) :=
  prod_uv cplx tr lside (trans_or_herm cplx (pt_arg s)) b x m.
(** The part of a view in the columns [low ...], and in the rows [low ...]. *)
Definition col_range (a : arg2) (low n : nat) : arg2 := {| arows := arows a; acols := n; aget2 := fun m i j => aget2 a m i (low + j)%nat |}.
Definition row_range (a : arg2) (low n : nat) : arg2 := {| arows := n; acols := acols a; aget2 := fun m i j => aget2 a m (low + i)%nat j |}.
(** x = a for a view [a]: element by element. *)
Definition assign_arg (x : block2) (a : @arg2 K) m : option (mem K) :=
  assert (rows x =? arows a)%nat ;; assert (cols x =? acols a)%nat ;;
  loop (fun i m => loop (fun j m => y <- aget2 a m i j ;; put2 m x i j y) 0 (cols x) m) 0 (rows x) m.
(** 168-190.  Simplification: low <= high + 1 (the difference high - low + 1 does not wrap). *)
Definition svd_u (s : svd) (low high : nat) (u : block2) m : option (mem K) :=
  assert (match s_ust s with uvpart => high <? s_p s | uvfull => high <? s_m s | uvnos => false end)%nat ;;
  assert (rows u =? s_m s)%nat ;; assert (cols u =? high + 1 - low)%nat ;;
  assign_arg u (col_range (q_arg s) low (high + 1 - low)) m.
Definition svd_v (cplx : bool) (s : svd) (low high : nat) (v : block2) m : option (mem K) :=
  assert (match s_vst s with uvpart => high <? s_p s | uvfull => high <? s_n s | uvnos => false end)%nat ;;
  assert (rows v =? s_n s)%nat ;; assert (cols v =? high + 1 - low)%nat ;;
  assign_arg v (trans_or_herm cplx (row_range (pt_arg s) low (high + 1 - low))) m.

(** The sizes of the matrix made by the by-value class: vsip/impl/solver/svd.hpp 117-137, 143-163. *)
Definition produ_size (s : svd) (tr : mat_op) (lside : bool) (b : block2) : nat * nat :=
  let q_rows := s_m s in
  let q_cols := match s_ust s with uvfull => s_m s | _ => s_p s end in
  let nt := match tr with mat_ntrans => true | _ => false end in
  if lside then (if nt then q_rows else q_cols, cols b) else (rows b, if nt then q_cols else q_rows).
Definition prodv_size (s : svd) (tr : mat_op) (lside : bool) (b : block2) : nat * nat :=
  let vt_rows := match s_vst s with uvfull => s_n s | _ => s_p s end in
  let vt_cols := s_n s in
  let nt := match tr with mat_ntrans => true | _ => false end in
  if lside then (if nt then vt_cols else vt_rows, cols b) else (rows b, if nt then vt_rows else vt_cols).

(** * Specification *)

(** Q is unitary of order n. *)
Definition unitary (n : nat) (Q : nat -> nat -> K) : Prop :=
  (forall i j, (i < n)%nat -> (j < n)%nat -> mmul n (adj conj Q) Q i j = delta i j) /\
  (forall i j, (i < n)%nat -> (j < n)%nat -> mmul n Q (adj conj Q) i j = delta i j).
(** The upper (lower) bidiagonal matrix with diagonal [d] and off-diagonal [e]. *)
Definition bidiag (upper : bool) (d e : list K) (i j : nat) : K :=
  if (i =? j)%nat then nth i d 0
  else if upper then (if (j =? S i)%nat then nth i e 0 else 0) else (if (i =? S j)%nat then nth j e 0 else 0).
(** What xBDSQR is documented to do for the bidiagonal matrix of order [p] given by [d] and [e]: it is Q S P^H with unitary Q and P
    and diagonal S; the ncvt columns of VT become P^H VT, and the nru rows of
    U become U Q.  [sv S]: whatever is promised of the singular values (real, not negative, decreasing). *)
Definition bdsqr_for (sv : list K -> Prop) (upper : bool) (p : nat) (d e : list K) : Prop :=
  exists Q P S, unitary p Q /\ unitary p P /\ sv S /\ length S = p /\
    (forall i j, (i < p)%nat -> (j < p)%nat -> bidiag upper d e i j = sum (fun r => Q i r * nth r S 0 * conj (P j r)) p) /\
    forall ncvt nru vt ldvt u ldu,
      (1 <= ldvt)%nat -> (ncvt = 0 \/ p <= ldvt)%nat -> (1 <= ldu)%nat -> (nru <= ldu)%nat -> fits vt ldvt p ncvt = true -> fits u ldu nru p = true ->
      bdsqr upper p ncvt nru d e vt ldvt u ldu =
        Some (S, update vt ldvt p ncvt (fun i j => sum (fun k => conj (P k i) * elt vt ldvt k j) p),
                 update u ldu nru p (fun i j => sum (fun k => elt u ldu i k * Q k j) p)).
(** What xGEBRD is documented to return for an M by N matrix A: A = Q B P^H with unitary Q and P, B
    bidiagonal; and Q and P as xORGBR makes them of the result: Q (its first [c] columns; all M when M < N) from
    any buffer that starts with the columns of the result, P^H (its first [r] rows; all N when M >= N)
    from any buffer that has the rows of the result on top. *)
Definition gebrd_for (sv : list K -> Prop) (M N : nat) (A : nat -> nat -> K) : Prop :=
  let p := Nat.min M N in
  forall a, stored M N A a ->
  exists a' d e tauq taup Q P, gebrd M N a M = Some (a', d, e, tauq, taup) /\ length a' = (M * N)%nat /\
    unitary M Q /\ unitary N P /\
    (forall i j, (i < M)%nat -> (j < N)%nat -> A i j = sum (fun k => sum (fun l => Q i k * bidiag (N <=? M)%nat d e k l * conj (P j l)) p) p) /\
    bdsqr_for sv (N <=? M)%nat p d e /\
    (forall c q, (p <= c <= M)%nat -> length q = (M * c)%nat -> (forall i j, (i < M)%nat -> (j < p)%nat -> elt q M i j = elt a' M i j) ->
       exists q', gbr VQ M c N q M tauq = Some q' /\ length q' = (M * c)%nat /\ forall i j, (i < M)%nat -> (j < c)%nat -> elt q' M i j = Q i j) /\
    (forall r pt, (p <= r <= N)%nat -> length pt = (r * N)%nat -> (forall i j, (i < p)%nat -> (j < N)%nat -> elt pt r i j = elt a' M i j) ->
       exists pt', gbr VP r N M pt r taup = Some pt' /\ length pt' = (r * N)%nat /\ forall i j, (i < r)%nat -> (j < N)%nat -> elt pt' r i j = conj (P j i)).
(** The number of columns of U (V) that are kept. *)
Definition kept (st : uvstorage) (full part : nat) : nat := match st with uvnos => 0 | uvpart => part | uvfull => full end.

(** An svd object for M by N matrices: new, or one that has decomposed any number of matrices
    before. *)
Inductive svd_obj (sv : list K -> Prop) (M N : nat) (ust vst : uvstorage) : svd -> Prop :=
| so_new s : svd_new M N ust vst = Some s -> svd_obj sv M N ust vst s
| so_again s s' a dest A m m' : svd_obj sv M N ust vst s -> rows a = M -> cols a = N -> len dest = Nat.min M N ->
    holds2 m a A -> wf1 m dest -> gebrd_for sv M N A -> svd_decompose s a dest m = Some (s', m') -> svd_obj sv M N ust vst s'.
(** The shape of op(X) for a matrix X with [r] rows and [c] columns. *)
Definition op_shape (tr : mat_op) (r c : nat) : nat * nat := match tr with mat_ntrans | mat_conj => (r, c) | _ => (c, r) end.
(** x has the shape of op(X) b (lside) or b op(X), and the inner sizes agree. *)
Definition prod_shape (tr : mat_op) (lside : bool) (r c : nat) (b x : block2) : Prop :=
  let '(h, w) := op_shape tr r c in
  if lside then w = rows b /\ rows x = h /\ cols x = cols b else cols b = h /\ rows x = rows b /\ cols x = w.
(** Element (i,j) of op(X) B (lside) or B op(X). *)
Definition prod_elem (tr : mat_op) (lside : bool) (r c : nat) (X B : nat -> nat -> K) (i j : nat) : K :=
  let '(h, w) := op_shape tr r c in
  if lside then sum (fun k => op_elem conj tr X i k * B k j) w else sum (fun k => B i k * op_elem conj tr X k j) h.
End Svd.
