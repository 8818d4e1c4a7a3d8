(** * C67: window functions *)
From Coq Require Import ZArith Reals Lra Lia List Bool Arith.
From Verif Require Import Base Window WindowProofs.
Import ListNotations.
Local Open Scope R_scope.

(** The Blackman window: for every length above one, the textbook formula at
    every index, symmetric, within 0 and 1, and zero at the ends. *)
Theorem C67_blackman : forall (fill : R) (len : nat), (1 < len)%nat -> exists w, blackman fill len = Some w /\ window len w /\ nth_error w 0 = Some 0 /\
  forall n, (n < len)%nat -> nth_error w n = Some (42 / 100 - 1 / 2 * cos (2 * PI * INR n / INR (len - 1)) + 8 / 100 * cos (4 * PI * INR n / INR (len - 1))).
Proof. exact blackman_ok. Qed.
Example C67_blackman_ex : exists w, blackman 0 3 = Some w /\ nth_error w 1 = Some 1.
Proof.
  destruct (C67_blackman 0 3 ltac:(lia)) as (w & E & _ & _ & F). exists w. split; [exact E|]. rewrite (F 1%nat ltac:(lia)). f_equal. cbn [Nat.sub INR].
  replace (2 * PI * 1 / (1 + 1)) with PI by field. replace (4 * PI * 1 / (1 + 1)) with (2 * PI) by field. rewrite cos_PI, cos_2PI. lra.
Qed.

(** The Hanning window: for every length above one and below 2^32, the
    textbook formula at every index, positive, at most one and symmetric, and
    nothing else is written. *)
Theorem C67_hanning : forall (fuel : nat) (v : Z -> R) (len : Z), (1 < len < 2 ^ 32)%Z -> (Z.to_nat len <= fuel)%nat -> exists w, hanning fuel v len = Some w /\
  (forall i, (0 <= i < len)%Z -> w i = 1 / 2 * (1 - cos (2 * PI * IZR (i + 1) / IZR (len + 1))) /\ 0 < w i <= 1 /\ w i = w (len - 1 - i)%Z) /\
  forall i, (i < 0 \/ len <= i)%Z -> w i = v i.
Proof. exact hanning_ok. Qed.
Example C67_hanning_ex : exists w, hanning 5 (fun _ => 7) 3 = Some w /\ w 1%Z = 1 /\ w 3%Z = 7.
Proof.
  destruct (C67_hanning 5 (fun _ => 7) 3 ltac:(lia) ltac:(cbn; lia)) as (w & E & F & G). exists w. split; [exact E|]. split.
  - destruct (F 1%Z ltac:(lia)) as [-> _]. replace (2 * PI * IZR (1 + 1) / IZR (3 + 1)) with PI by (cbn; field). rewrite cos_PI. lra.
  - rewrite G by lia. reflexivity.
Qed.
(** The counter of the Hanning loop is 32 bits wide while the length is 64
    bits wide: from length 2^32 on the function does not return. *)
Theorem C67_hanning_long_refuted : forall (len : Z), (2 ^ 32 <= len)%Z -> forall (fuel : nat) (v : Z -> R), hanning fuel v len = None.
Proof.
  intros len H fuel v. unfold hanning. destruct (Z.ltb_spec 1 len); [|reflexivity]. apply hanning_stuck; [exact H|reflexivity].
Qed.

(** The Bessel function behind the Kaiser window returns for every argument,
    and is at most 2e-4 below the sum of the series, at most 1e-8 below for arguments
    above 3 in magnitude. *)
Theorem C67_bessel : forall x : R, exists v f0, (forall f, (f0 <= f)%nat -> bessel_I_0 f x = Some v) /\
  exists l, is_I0 x l /\ 0 <= l - v <= 2 / 10000 /\ (3 < Rabs x -> l - v <= 1 / 100000000).
Proof.
  intros x. destruct (bessel_total x) as [v [f0 F]]. exists v, f0. split; [exact F|]. destruct (I0_exists x) as [l Hl]. exists l. split; [exact Hl|].
  pose proof (bessel_error x v l (ex_intro _ f0 F) Hl) as E. destruct (Rle_dec (Rabs x) 3); unfold eps in E; split; try lra; intros; lra.
Qed.
Example C67_bessel_ex : bessel_I_0 0 0 = Some 1 /\ is_I0 0 1.
Proof.
  split.
  - unfold bessel_I_0. rewrite Rabs_R0. destruct (Rle_dec 0 3); [|lra]. f_equal. unfold bessel_poly. cbv zeta. field.
  - destruct (I0_exists 0) as [l Hl]. assert (E : l = 1); [|rewrite <- E; exact Hl]. destruct (I0_bounds 0 l 0 Hl) as [A B].
    assert (l <= 1 + term (0 * 0 / 4) 0) by (apply B; cbn; lra). destruct (I0_bounds 0 l 1 Hl) as [A1 B1]. specialize (B1 ltac:(cbn; lra)). cbn in A, B1. unfold term in B1. cbn in B1. lra.
Qed.
(** For arguments up to 3 in magnitude the code promises (in its comment) an
    error within 1.6e-7 and cites the formula for I_0, but its coefficients are
    those of the formula for J_0 with the signs dropped: at 3 the error is above 1.8e-4,
    over a thousand times larger. *)
Theorem C67_bessel_accuracy_refuted : exists (x v l : R), Rabs x <= 3 /\ (forall f, bessel_I_0 f x = Some v) /\ is_I0 x l /\ 1000 * (16 / 100000000) < Rabs (v - l).
Proof.
  destruct (I0_exists 3) as [l Hl]. exists 3, (bessel_poly 1), l. assert (A : Rabs 3 <= 3) by (rewrite Rabs_pos_eq; lra). split; [exact A|]. split; [|split; [exact Hl|]].
  - intros f. unfold bessel_I_0. destruct (Rle_dec (Rabs 3) 3); [|contradiction]. f_equal. f_equal. field.
  - pose proof (poly_gap l Hl). rewrite Rabs_left; lra.
Qed.

(** The Kaiser window: for every length above one and every beta the function
    returns a symmetric window of positive values up to one, whose middle value
    is one for odd lengths; every value is within 2e-4 of the quotient of Bessel functions in
    the definition of the window. *)
Theorem C67_kaiser : forall (len : nat) (beta : R), (1 < len)%nat -> exists w f0, (forall f fill, (f0 <= f)%nat -> kaiser f fill len beta = Some w) /\ window len w /\
  (forall n, (n < len)%nat -> exists wn, nth_error w n = Some wn /\ 0 < wn /\
     forall l lb, is_I0 (beta * sqrt (1 - (2 * INR n / INR (len - 1) - 1) ^ 2)) l -> is_I0 beta lb -> Rabs (wn - l / lb) <= 2 / 10000) /\
  (forall k, len = (2 * k + 1)%nat -> nth_error w k = Some 1).
Proof. exact kaiser_ok. Qed.
Example C67_kaiser_ex : exists w f0, (forall f fill, (f0 <= f)%nat -> kaiser f fill 5 6 = Some w) /\ nth_error w 2 = Some 1 /\ nth_error w 0 = nth_error w 4.
Proof.
  destruct (C67_kaiser 5 6 ltac:(lia)) as (w & f0 & F & (_ & _ & Sy) & _ & M). exists w, f0. split; [exact F|]. split; [apply (M 2%nat); reflexivity|]. exact (Sy 0%nat ltac:(lia)).
Qed.

Print Assumptions C67_blackman.
Print Assumptions C67_hanning.
Print Assumptions C67_hanning_long_refuted.
Print Assumptions C67_bessel.
Print Assumptions C67_bessel_accuracy_refuted.
Print Assumptions C67_kaiser.
