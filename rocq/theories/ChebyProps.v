(** * C68: the Chebyshev window *)
From Coq Require Import ZArith Reals Lra Lia List Bool Arith.
From Verif Require Import Base Dft DftReals Cheby ChebyProofs.
Import ListNotations.
Local Open Scope R_scope.

(** For every length above one and every ripple the window exists, has that
    length, is symmetric, has no negative value, and is one at the middle. *)
Theorem C68_shape : forall (len : nat) (ripple : R), (1 < len)%nat -> exists w, cheby len ripple = Some w /\ length w = len /\
  (forall n, (n < len)%nat -> nth_error w n = nth_error w (len - 1 - n)) /\ (forall n x, nth_error w n = Some x -> 0 <= x) /\ nth_error w (len / 2) = Some 1.
Proof. intros len ripple H. destruct (cheby_ok len ripple H) as (w & s & E & L & S & P & M & _). exists w. auto. Qed.
Example C68_shape_ex : exists w, cheby 4 60 = Some w /\ nth_error w 2 = Some 1 /\ nth_error w 1 = Some 1.
Proof.
  destruct (C68_shape 4 60 ltac:(lia)) as (w & E & _ & S & _ & M). exists w. split; [exact E|]. split; [exact M|]. rewrite (S 1%nat) by lia. exact M.
Qed.

(** Its spectrum is the Chebyshev polynomial of degree len-1, for every length above one and
    every ripple: at bin k the magnitude is proportional to
    T_(len-1)(s cos(pi k/len)), where s > 1 is the point at which the
    polynomial is (1+d)/d with d = 10^(-ripple/20). *)
Theorem C68_spectrum : forall (len : nat) (ripple : R), (1 < len)%nat -> exists w s, cheby len ripple = Some w /\
  1 < s /\ T (len - 1) s = (1 + Rpower 10 (- ripple / 20)) / Rpower 10 (- ripple / 20) /\
  0 < power w 0 /\ forall k, (k < len)%nat -> power w k * (T (len - 1) s) ^ 2 = power w 0 * (T (len - 1) (s * cos (PI * INR k / INR len))) ^ 2.
Proof. intros len ripple H. destruct (cheby_ok len ripple H) as (w & s & E & _ & _ & _ & _ & F). exists w, s. auto. Qed.
Example C68_spectrum_ex : exists w, cheby 4 60 = Some w /\ power w 2 = 0.
Proof.
  destruct (C68_spectrum 4 60 ltac:(lia)) as (w & s & E & S & TS & P & F). exists w. split; [exact E|]. specialize (F 2%nat ltac:(lia)).
  replace (PI * INR 2 / INR 4) with (PI / 2) in F by (cbn; field). rewrite cos_PI2, Rmult_0_r in F. cbn [Nat.sub T] in F.
  replace ((2 * 0 * (2 * 0 * 0 - 1) - 0) ^ 2) with 0 in F by ring. rewrite Rmult_0_r in F. apply Rmult_integral in F. destruct F as [F|F]; [exact F|]. exfalso.
  change (2 * s * (2 * s * s - 1) - s) with (T (4 - 1) s) in F. rewrite TS in F. assert (D : 0 < Rpower 10 (- (60) / 20)) by apply exp_pos. revert F. apply Rgt_not_eq, pow_lt. apply Rdiv_lt_0_compat; lra.
Qed.

(** No bin is above bin zero, and every bin outside the main lobe is at
    least ripple decibels below bin zero. *)
Theorem C68_sidelobes : forall (len : nat) (ripple : R), (1 < len)%nat -> exists w s, cheby len ripple = Some w /\
  1 < s /\ T (len - 1) s = (1 + Rpower 10 (- ripple / 20)) / Rpower 10 (- ripple / 20) /\ 0 < power w 0 /\
  (forall k, (k < len)%nat -> power w k <= power w 0) /\
  forall k, (k < len)%nat -> s * Rabs (cos (PI * INR k / INR len)) <= 1 -> power w k <= Rpower 10 (- ripple / 10) * power w 0.
Proof. exact cheby_bins. Qed.
Example C68_sidelobes_ex : exists w, cheby 6 40 = Some w /\ power w 3 <= Rpower 10 (-4) * power w 0.
Proof.
  destruct (C68_sidelobes 6 40 ltac:(lia)) as (w & s & E & S & _ & _ & _ & F). exists w. split; [exact E|]. specialize (F 3%nat ltac:(lia)). replace (-4) with (- 40 / 10) by field. apply F.
  replace (PI * INR 3 / INR 6) with (PI / 2) by (cbn; field). rewrite cos_PI2, Rabs_R0. lra.
Qed.

Print Assumptions C68_shape.
Print Assumptions C68_spectrum.
Print Assumptions C68_sidelobes.
