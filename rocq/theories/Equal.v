(** Comparison of values and views up to rounding (src/ovxx/equal.hpp), and
    a small specification. *)
From Coq Require Import ZArith List Lia Bool Arith QArith Qabs Qminmax.
From Coq Require Import SpecFloat.
From Verif Require Import Base Scalar.
Import ListNotations.
Open Scope Z_scope.

(** almost_equal (equal.hpp 24-39) over any arithmetic: subtraction,
    division, magnitude and the two comparisons. *)
Section Almost.
Variable T : Type.
Variables (sub div : T -> T -> T) (mag : T -> T) (ltb leb : T -> T -> bool).
Definition almost_equal (rel_eps abs_eps a b : T) : bool :=
  if ltb (mag (sub a b)) abs_eps then true
  else
    let relative_error :=
      if ltb (mag b) (mag a) then mag (div (sub a b) b) else mag (div (sub b a) a) in
    leb relative_error rel_eps.
End Almost.

(** float and double (IEEE arithmetic, rounding to nearest): precision and
    exponent range. *)
Inductive format := Float | Double.
Definition prec (f : format) : Z := match f with Float => 24 | Double => 53 end.
Definition emax (f : format) : Z := match f with Float => 128 | Double => 1024 end.

(** An integer or the quotient of two as a double literal; conversion of a
    double to another format. *)
Definition of_int (f : format) (n : Z) : spec_float := binary_normalize (prec f) (emax f) n 0 false.
Definition literal (n d : Z) : spec_float := SFdiv 53 1024 (of_int Double n) (of_int Double d).
Definition narrow (f : format) (x : spec_float) : spec_float :=
  match x with
  | S754_finite s m e => binary_round (prec f) (emax f) s m e
  | x => x
  end.

(** equal(a, b) for two floating-point numbers of the same type (equal.hpp
    48-56), with the default tolerances 1e-4 and 1e-6 (25-27). *)
Definition f_equal_ (f : format) (a b : spec_float) : bool :=
  almost_equal spec_float (SFsub (prec f) (emax f)) (SFdiv (prec f) (emax f)) SFabs SFltb SFleb
    (narrow f (literal 1 10000)) (narrow f (literal 1 1000000)) a b.

(** equal(a, b) for complex numbers (equal.hpp 58-60). *)
Definition c_equal (f : format) (a b : spec_float * spec_float) : bool :=
  f_equal_ f (fst a) (fst b) && f_equal_ f (snd a) (snd b).

(** The same computation without rounding: rational numbers; [None] is what a
    division by zero gives (an infinity or a NaN, no smaller than anything). *)
Definition q_sub (x y : option Q) : option Q :=
  match x, y with Some a, Some b => Some (a - b)%Q | _, _ => None end.
Definition q_div (x y : option Q) : option Q :=
  match x, y with Some a, Some b => if Qeq_bool b 0 then None else Some (a / b)%Q | _, _ => None end.
Definition q_mag (x : option Q) : option Q := option_map Qabs x.
Definition q_leb (x y : option Q) : bool :=
  match x, y with Some a, Some b => Qle_bool a b | _, _ => false end.
Definition q_ltb (x y : option Q) : bool :=
  match x, y with Some a, Some b => negb (Qle_bool b a) | _, _ => false end.
Definition q_equal (a b : Q) : bool :=
  almost_equal (option Q) q_sub q_div q_mag q_ltb q_leb (Some (1 # 10000)%Q) (Some (1 # 1000000)%Q) (Some a) (Some b).

(** equal(a, b) for two integers: a == b in the common type (equal.hpp
    41-46). *)
Definition i_equal (s t : ity) (a b : Z) : bool := ieq s t a b.

(** equal(a, b) for a long long and a double (equal.hpp 48-56):
    Promotion<long long, double> is not listed in promotion.hpp 44-62, so it
    is the left type, long long.  The double is converted to long long (the
    fraction is dropped; undefined out of range), and almost_equal works in
    long long, in which both tolerances are 0 (1e-4 and 1e-6 converted). *)
Definition in_ll (x : Z) : option Z := if (- 2 ^ 63 <=? x) && (x <? 2 ^ 63) then Some x else None.
Definition trunc (x : spec_float) : option Z :=
  match x with
  | S754_zero _ => Some 0
  | S754_finite s m e =>
    let n := if 0 <=? e then Z.pos m * 2 ^ e else Z.pos m / 2 ^ (- e) in
    in_ll (if s then - n else n)
  | _ => None
  end.
Definition ll_div (x y : Z) : option Z := if y =? 0 then None else in_ll (Z.quot x y).
Definition ll_almost_equal (rel_eps abs_eps a b : Z) : option bool :=
  d <- in_ll (a - b) ;;
  m <- in_ll (Z.abs d) ;;
  if m <? abs_eps then Some true
  else
    ma <- in_ll (Z.abs a) ;;
    mb <- in_ll (Z.abs b) ;;
    q <- (if mb <? ma then ll_div d b else (d' <- in_ll (b - a) ;; ll_div d' a)) ;;
    r <- in_ll (Z.abs q) ;;
    Some (r <=? rel_eps).
Definition ll_double_equal (a : Z) (b : spec_float) : option bool :=
  n <- trunc b ;; ll_almost_equal 0 0 a n.

(** equal(a, b) for a double and a long long: the left type is double. *)
Definition double_ll_equal (a : spec_float) (b : Z) : bool := f_equal_ Double a (of_int Double b).

(** Views (equal.hpp 88-119): sizes first, then element by element, stopping
    at the first difference. *)
Section Views.
Variables (A B : Type) (eqb : A -> B -> bool).

Fixpoint all_from (i n : nat) (f : nat -> bool) : bool :=
  match n with
  | O => true
  | S n' => if negb (f i) then false else all_from (i + 1) n' f
  end.

Definition equal_vector (n : nat) (v : nat -> A) (n' : nat) (w : nat -> B) : bool :=
  if negb (n =? n')%nat then false else all_from 0 n (fun i => eqb (v i) (w i)).

Definition equal_matrix (r c : nat) (v : nat -> nat -> A) (r' c' : nat) (w : nat -> nat -> B) : bool :=
  if negb (r =? r')%nat || negb (c =? c')%nat then false
  else all_from 0 r (fun i => all_from 0 c (fun j => eqb (v i j) (w i j))).

Definition equal_tensor (p r c : nat) (v : nat -> nat -> nat -> A) (p' r' c' : nat) (w : nat -> nat -> nat -> B) : bool :=
  if negb (p =? p')%nat || negb (r =? r')%nat || negb (c =? c')%nat then false
  else all_from 0 p (fun i => all_from 0 r (fun j => all_from 0 c (fun k => eqb (v i j k) (w i j k)))).
End Views.

(** * Specification *)

Definition finite (x : spec_float) : Prop :=
  match x with S754_zero _ | S754_finite _ _ _ => True | _ => False end.

(** [b] is within a factor of two of [a]: same sign, and neither is twice the
    other. *)
Definition within_factor_two (a b : Z) : Prop :=
  (0 < a < 2 * b /\ 0 < b < 2 * a) \/ (2 * b < a < 0 /\ 2 * a < b < 0).
