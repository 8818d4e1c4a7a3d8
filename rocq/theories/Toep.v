(** Model of the Toeplitz solver (src/vsip/impl/solver/toepsol.hpp).
    Exact arithmetic over a field with conjugation (rationals, Gaussian
    rationals, reals, complex numbers); division by zero is [None].  The
    vectors are separate blocks with checked access. *)
From Coq Require Import ZArith List Lia Bool Arith.
From Verif Require Import Base.
Import ListNotations.
Local Open Scope nat_scope.

(** Fields with a conjugation and a real-part function. *)
Record StarField := {
  fk :> CRing;
  finv : fk -> fk; fconj : fk -> fk; fre : fk -> fk; feqb : fk -> fk -> bool;
  finv_ok : forall x : fk, x <> r0 -> rmul x (finv x) = r1;
  f01 : (r1 : fk) <> r0;
  fconj_add : forall x y, fconj (radd x y) = radd (fconj x) (fconj y);
  fconj_mul : forall x y, fconj (rmul x y) = rmul (fconj x) (fconj y);
  fconj_1 : fconj r1 = r1;
  fconj_conj : forall x, fconj (fconj x) = x;
  fre_real : forall x, fconj x = x -> fre x = x;
  feqb_ok : forall x y, feqb x y = true <-> x = y }.

Section Toep.
Context {F : StarField}.
Local Open Scope cr_scope.
Notation K := (fk F).
Definition fdiv (a b : K) : option K := assert (negb (feqb F b 0)) ;; Some (a * finv F b).

(** Outcomes: the solution, or the exception of l.70-73. *)
Inductive outcome := solved (x : list K) | not_full_rank.

(** l.75, 83: dot(conj(r(0..k-1)), v(k-1 downto 0)); r is t from element 1. *)
Definition dot_rev (t v : list K) (k : nat) : option K :=
  loop (fun i s => a <- bget t (S i) ;; c <- bget v (k - 1 - i) ;; Some (s + fconj F a * c)) 0 k 0.
(** l.79-80: x(0..k-1) = mu * conj(y(k-1 downto 0)) + x(0..k-1). *)
Definition add_rev (mu : K) (y x : list K) (k : nat) : option (list K) :=
  loop (fun i d => a <- bget y (k - 1 - i) ;; c <- bget d i ;; bput d i (mu * fconj F a + c)) 0 k x.
(** l.86-88: the same into tmpv and back. *)
Definition add_rev_tmp (alpha : K) (y tmpv : list K) (k : nat) : option (list K * list K) :=
  tmpv <- loop (fun i d => a <- bget y (k - 1 - i) ;; c <- bget y i ;; bput d i (alpha * fconj F a + c)) 0 k tmpv ;;
  y <- loop (fun i d => a <- bget tmpv i ;; bput d i a) 0 k y ;;
  Some (y, tmpv).
Record state := { alpha_ : K; beta_ : K; y_ : list K; x_ : list K; tmpv_ : list K; ok_ : bool }.
(** l.66-92, one iteration; [ok_] is false once the exception is thrown. *)
Definition step (t b : list K) (n : nat) (scale : K) (k : nat) (s : state) : option state :=
  if ok_ s then
    let beta := beta_ s * (1 - alpha_ s * fconj F (alpha_ s)) in
    if feqb F beta 0 then Some {| alpha_ := alpha_ s; beta_ := beta; y_ := y_ s; x_ := x_ s; tmpv_ := tmpv_ s; ok_ := false |} else
    tmps <- dot_rev t (x_ s) k ;;
    bk <- bget b k ;;
    mu <- fdiv (bk - tmps) (scale * beta) ;;
    x <- add_rev mu (y_ s) (x_ s) k ;;
    x <- bput x k mu ;;
    if k <? n - 1 then
      tmps <- dot_rev t (y_ s) k ;;
      rk <- bget t (S k) ;;
      alpha <- fdiv (- (tmps + fconj F rk)) (scale * beta) ;;
      yt <- add_rev_tmp alpha (y_ s) (tmpv_ s) k ;;
      y <- bput (fst yt) k alpha ;;
      Some {| alpha_ := alpha; beta_ := beta; y_ := y; x_ := x; tmpv_ := snd yt; ok_ := true |}
    else Some {| alpha_ := alpha_ s; beta_ := beta; y_ := y_ s; x_ := x; tmpv_ := tmpv_ s; ok_ := true |}
  else Some s.
(** l.41-96. *)
Definition toepsol (t b y x : list K) : option outcome :=
  assert (length t =? length b) ;; assert (length t =? length y) ;; assert (length t =? length x) ;;
  let n := length t in
  t0 <- bget t 0 ;;
  let scale := fre F t0 in
  r <- bget t 1 ;;
  q <- fdiv (- r) scale ;;
  let alpha := fconj F q in
  y <- bput y 0 alpha ;;
  b0 <- bget b 0 ;; x0 <- fdiv b0 scale ;;
  x <- bput x 0 x0 ;;
  s <- loop (fun i s => step t b n scale (S i) s) 0 (n - 1) {| alpha_ := alpha; beta_ := 1; y_ := y; x_ := x; tmpv_ := repeat 0 n; ok_ := true |} ;;
  Some (if ok_ s then solved (x_ s) else not_full_rank).

(** * Specification *)
(** The Hermitian Toeplitz matrix with first row t. *)
Definition toeplitz (t : list K) (i j : nat) : K :=
  if (i <=? j)%nat then nth (j - i) t 0 else fconj F (nth (i - j) t 0).
End Toep.
