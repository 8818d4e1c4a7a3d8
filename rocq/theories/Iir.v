(** Model of the IIR filter (src/vsip/impl/signal/iir.hpp).
    Simplifications: exact arithmetic (a commutative ring); matrices are
    lists of rows, accesses are bounds-checked; input and output are the
    same vector or do not overlap (both cases are modelled). *)
From Coq Require Import ZArith List Lia Bool Arith.
From Verif Require Import Base.
Import ListNotations.
Local Open Scope nat_scope.

Section Iir.
Context {K : CRing}.
Local Open Scope cr_scope.
Definition matrix := list (list K).
Definition mget (M : matrix) (r c : nat) : option K := row <- bget M r ;; bget row c.
Definition mput (M : matrix) (r c : nat) (x : K) : option matrix := row <- bget M r ;; row' <- bput row c x ;; bput M r row'.

(** iir.hpp 86-90. *)
Record iir := { b_ : matrix; a_ : matrix; w_ : matrix; input_size : nat }.
(** iir.hpp 27-41; [w_] starts with zeros. *)
Definition make_iir (b a : matrix) (i : nat) : option iir :=
  assert (length b =? length a)%nat ;; assert (forallb (fun r => length r =? 3)%nat b) ;; assert (forallb (fun r => length r =? 2)%nat a) ;;
  Some {| b_ := b; a_ := a; w_ := repeat [0; 0] (length b); input_size := i |}.
(** iir.hpp 84. *)
Definition reset (f : iir) : iir := {| b_ := b_ f; a_ := a_ f; w_ := map (fun _ => [0; 0]) (w_ f); input_size := input_size f |}.

(** iir.hpp 123-132: one second-order section. *)
Definition section_step (b a : matrix) (m : nat) (s : K * matrix) : option (K * matrix) :=
  let '(val, w) := s in
  a1 <- mget a m 0 ;; w1 <- mget w m 0 ;; a2 <- mget a m 1 ;; w2 <- mget w m 1 ;;
  let w0 := val - a1 * w1 - a2 * w2 in
  b0 <- mget b m 0 ;; b1 <- mget b m 1 ;; b2 <- mget b m 2 ;;
  let val := b0 * w0 + b1 * w1 + b2 * w2 in
  w <- mput w m 1 w1 ;; w <- mput w m 0 w0 ;;
  Some (val, w).
(** iir.hpp 93-142; [save] is C == state_save; [cur out] is the input vector
    while the output vector holds [out]. *)
Definition filter_on (cur : list K -> list K) (save : bool) (f : iir) (out : list K) : option (iir * list K) :=
  assert (length (cur out) =? input_size f)%nat ;; assert (length out =? input_size f)%nat ;;
  r <- loop (fun i '(w, out) =>
               x <- bget (cur out) i ;;
               r <- loop (section_step (b_ f) (a_ f)) 0 (length (a_ f)) (x, w) ;;
               out <- bput out i (fst r) ;; Some (snd r, out))
            0 (length out) (w_ f, out) ;;
  let f' := {| b_ := b_ f; a_ := a_ f; w_ := fst r; input_size := input_size f |} in
  Some (if save then f' else reset f', snd r).
(** Input and output vectors that do not overlap. *)
Definition filter (save : bool) (f : iir) (data out : list K) := filter_on (fun _ => data) save f out.
(** The same vector as input and output. *)
Definition filter_in_place (save : bool) (f : iir) (v : list K) := filter_on (fun o => o) save f v.
(** A sequence of calls on one filter object. *)
Fixpoint run (save : bool) (f : iir) (calls : list (list K * list K)) : option (iir * list (list K)) :=
  match calls with
  | [] => Some (f, [])
  | (data, out) :: r => x <- filter save f data out ;; y <- run save (fst x) r ;; Some (fst y, snd x :: snd y)
  end.

(** * Specification *)
(** The sample [k] before sample [n] of a signal that is zero before its start. *)
Definition delayed (l : list K) (n k : nat) : K := if (k <=? n)%nat then nth (n - k) l 0 else 0.
(** One second-order difference equation:
    y(n) + a1 y(n-1) + a2 y(n-2) = b0 x(n) + b1 x(n-1) + b2 x(n-2). *)
Definition difference_equation (b a x y : list K) : Prop :=
  length y = length x /\
  forall n, (n < length x)%nat ->
    delayed y n 0 + nth 0 a 0 * delayed y n 1 + nth 1 a 0 * delayed y n 2
    = nth 0 b 0 * delayed x n 0 + nth 1 b 0 * delayed x n 1 + nth 2 b 0 * delayed x n 2.
(** A cascade: the output of each section is the input of the next. *)
Fixpoint cascade (b a : matrix) (x y : list K) : Prop :=
  match b, a with
  | [], [] => y = x
  | br :: b', ar :: a' => exists z, difference_equation br ar x z /\ cascade b' a' z y
  | _, _ => False
  end.
End Iir.
Arguments iir : clear implicits.
