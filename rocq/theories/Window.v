(** * Window functions

    Model of src/ovxx/signal/window.cpp over the real numbers of Coq's
    standard library: every arithmetic operation is exact and sin, cos, sqrt
    are those of the library (the code computes in float or double).  The
    Chebyshev window (113-183) is not modelled here.

    Loops whose end depends on a machine counter or on computed values take the number of
    steps allowed; [None] also stands for running out of steps. *)
From Coq Require Import ZArith Reals List Bool Arith.
From Verif Require Import Base.
Import ListNotations.
Local Open Scope R_scope.

(** bessel_I_0, the polynomial branch, 58-71.  [y] is (x/3)^2. *)
Definition bessel_poly (y : R) : R :=
  let a1 := 22499997 / 10000000 in
  let a2 := 12656208 / 10000000 in
  let a3 := 3163866 / 10000000 in
  let a4 := 444479 / 10000000 in
  let a5 := 39444 / 10000000 in
  let a6 := 2100 / 10000000 in
  1 + y * (a1 + y * (a2 + y * (a3 + y * (a4 + y * (a5 + y * a6))))).
(** The while loop of bessel_I_0, 81-88: state n, n0, x1, diff, ans. *)
Fixpoint bessel_loop (fuel : nat) (x0 : R) (n : nat) (n0 x1 diff ans : R) : option R :=
  if Rlt_dec (1 / 100000000) diff then
    match fuel with
    | O => None
    | S fuel =>
        let n := (n + 1)%nat in
        let n0 := n0 * INR n in
        let x1 := x1 * x0 in
        let diff := x1 / (n0 * n0) in
        bessel_loop fuel x0 n n0 x1 diff (ans + diff)
    end
  else Some ans.
(** bessel_I_0, 44-91. *)
Definition bessel_I_0 (fuel : nat) (x : R) : option R :=
  if Rle_dec (Rabs x) 3 then
    let x := x / 3 in
    let x := x * x in
    Some (bessel_poly x)
  else
    let x1 := x * x * (1 / 4) in
    bessel_loop fuel x1 1 1 x1 1 (1 + x1).

(** Vector<T> v(len): the elements are unspecified; [fill] stands for them. *)
Definition fresh (fill : R) (len : nat) : list R := repeat fill len.
(** blackman, 96-111. *)
Definition blackman (fill : R) (len : nat) : option (list R) :=
  assert Nat.ltb 1 len ;;
  let temp1 := 2 * PI / INR (len - 1) in
  let temp2 := 2 * temp1 in
  loop (fun n v => bput v n (42 / 100 - 1 / 2 * cos (temp1 * INR n) + 8 / 100 * cos (temp2 * INR n))) 0 len (fresh fill len).
(** hanning, 187-200.  The counter is an unsigned int (32 bits), the length a
    length_type; n + 1 is computed in unsigned int too.  The vector is a function from
    the index to the element, since lengths above 2^32 matter. *)
Definition U32 : Z := 4294967296.
Fixpoint hanning_loop (fuel : nat) (temp : R) (len n : Z) (v : Z -> R) : option (Z -> R) :=
  if (n <? len)%Z then
    match fuel with
    | O => None
    | S fuel =>
        let x := 1 / 2 * (1 - cos (temp * IZR ((n + 1) mod U32))) in
        hanning_loop fuel temp len ((n + 1) mod U32)%Z (fun i => if (i =? n)%Z then x else v i)
    end
  else Some v.
Definition hanning (fuel : nat) (v : Z -> R) (len : Z) : option (Z -> R) :=
  assert (1 <? len)%Z ;;
  let temp := 2 * PI / IZR (len + 1) in
  hanning_loop fuel temp len 0 v.
(** kaiser, 203-226. *)
Definition kaiser (fuel : nat) (fill : R) (len : nat) (beta : R) : option (list R) :=
  assert Nat.ltb 1 len ;;
  let c1 := 2 / INR (len - 1) in
  Ibeta <- bessel_I_0 fuel beta ;;
  loop (fun n v =>
    let c3 := c1 * INR n - 1 in
    let c3 := if Rlt_dec 1 c3 then 1 else c3 in
    let x := beta * sqrt (1 - c3 * c3) in
    b <- bessel_I_0 fuel x ;; bput v n (b / Ibeta)) 0 len (fresh fill len).

(** * Specification *)

(** [l] is the value at [x] of the modified Bessel function of the first kind of order
    zero: the sum of (x^2/4)^k / (k!)^2. *)
Definition is_I0 (x l : R) : Prop := infinite_sum (fun k => (x * x / 4) ^ k / (INR (fact k)) ^ 2) l.
(** [w] is a window of [len] elements: symmetric, positive or zero, at most one. *)
Definition window (len : nat) (w : list R) : Prop :=
  length w = len /\
  (forall n x, nth_error w n = Some x -> 0 <= x <= 1) /\
  (forall n, (n < len)%nat -> nth_error w n = nth_error w (len - 1 - n)).
