(** Sine and cosine of the real numbers satisfy the laws used in C50 to C52.
    This file depends on the axioms of Coq's real numbers. *)
From Coq Require Import ZArith Reals Lra Lia List Arith.
From Verif Require Import Base Dft DftProofs DftMulti DftInv.
Local Open Scope R_scope.

Definition Rring : CRing := {| car := R; r0 := 0; r1 := 1; radd := Rplus; rmul := Rmult; rsub := Rminus; ropp := Ropp; r_th := RTheory |}.
Definition rtrig : trig Rring :=
  Build_trig Rring (fun l n => cos (2 * PI * IZR n / INR l)) (fun l n => sin (2 * PI * IZR n / INR l)).

Definition ang (l : nat) (n : Z) : R := 2 * PI * IZR n / INR l.
Lemma sc l n : sin_cos Rring rtrig l n = (cos (ang l n), sin (ang l n)).
Proof. reflexivity. Qed.
Lemma ang_add l a b : (0 < l)%nat -> ang l (a + b) = ang l a + ang l b.
Proof. intros H. unfold ang. rewrite plus_IZR. field. apply not_0_INR. lia. Qed.
Lemma ang_opp l a : (0 < l)%nat -> ang l (- a) = - ang l a.
Proof. intros H. unfold ang. rewrite opp_IZR. field. apply not_0_INR. lia. Qed.
Lemma ang_l l : (0 < l)%nat -> ang l (Z.of_nat l) = 2 * PI.
Proof. intros H. unfold ang. rewrite <- INR_IZR_INZ. field. apply not_0_INR. lia. Qed.
Lemma ang_0 l : (0 < l)%nat -> ang l 0 = 0.
Proof. intros H. unfold ang. field. apply not_0_INR. lia. Qed.

Lemma exact0 l : (0 < l)%nat -> sin_cos Rring rtrig l 0 = @r1 (Cr Rring).
Proof. intros H. rewrite sc, ang_0, cos_0, sin_0 by exact H. reflexivity. Qed.
Lemma exactadd l a b : (0 < l)%nat -> sin_cos Rring rtrig l (a + b) = @rmul (Cr Rring) (sin_cos Rring rtrig l a) (sin_cos Rring rtrig l b).
Proof. intros H. rewrite !sc, ang_add, cos_plus, sin_plus by exact H. cbn. f_equal; ring. Qed.
Lemma exactper l : (0 < l)%nat -> sin_cos Rring rtrig l (Z.of_nat l) = @r1 (Cr Rring).
Proof. intros H. rewrite sc, ang_l by exact H. rewrite cos_2PI, sin_2PI. reflexivity. Qed.

Lemma tele (l j n : nat) : (0 < l)%nat -> 
  @rmul (Cr Rring) (@rsub (Cr Rring) (sin_cos Rring rtrig l (Z.of_nat j)) (@r1 (Cr Rring))) (@sum (Cr Rring) (fun k => sin_cos Rring rtrig l (Z.of_nat k * Z.of_nat j)) n)
  = @rsub (Cr Rring) (sin_cos Rring rtrig l (Z.of_nat n * Z.of_nat j)) (@r1 (Cr Rring)).
Proof.
  intros H. induction n as [|n IH].
  - cbn [sum]. change (Z.of_nat 0 * Z.of_nat j)%Z with 0%Z. rewrite exact0 by exact H. cbn. f_equal; ring.
  - cbn [sum]. replace (Z.of_nat (S n) * Z.of_nat j)%Z with (Z.of_nat n * Z.of_nat j + Z.of_nat j)%Z by lia.
    rewrite exactadd by exact H. 
    destruct (@sum (Cr Rring) (fun k => sin_cos Rring rtrig l (Z.of_nat k * Z.of_nat j)) n) as [a b].
    destruct (sin_cos Rring rtrig l (Z.of_nat n * Z.of_nat j)) as [c d]. destruct (sin_cos Rring rtrig l (Z.of_nat j)) as [e f].
    cbn in *. injection IH as I1 I2. f_equal; [replace c with (((e - 1) * a - (f - 0) * b) + 1) at 1 2 by (rewrite I1; ring)|]; nra.
Qed.

Lemma exact_reals (l : nat) : (0 < l)%nat -> exact Rring rtrig l.
Proof.
  intros H. split.
  - apply exact0, H.
  - intros a b. apply exactadd, H.
  - intros a. rewrite !sc, ang_opp, cos_neg, sin_neg by exact H. reflexivity.
  - apply exactper, H.
  - intros j Hj. pose proof (tele l j l H) as T.
    assert (P : sin_cos Rring rtrig l (Z.of_nat l * Z.of_nat j) = @r1 (Cr Rring)).
    { clear T. induction j as [|j IH]; [rewrite Z.mul_0_r; apply exact0, H|].
      replace (Z.of_nat l * Z.of_nat (S j))%Z with (Z.of_nat l * Z.of_nat j + Z.of_nat l)%Z by lia. rewrite exactadd, exactper by exact H.
      destruct j as [|j]; [rewrite Z.mul_0_r, exact0 by exact H|rewrite IH by lia]; cbn; f_equal; ring. }
    rewrite P in T. rewrite sc in T.
    assert (C : cos (ang l (Z.of_nat j)) <> 1).
    { assert (A : 0 < ang l (Z.of_nat j) < 2 * PI).
      { unfold ang. rewrite <- INR_IZR_INZ. pose proof PI_RGT_0 as PI0. assert (L0 : 0 < INR l) by (apply lt_0_INR; lia).
        assert (J0 : 0 < INR j) by (apply lt_0_INR; lia). assert (JL : INR j < INR l) by (apply lt_INR; lia).
        split.
        - apply Rdiv_lt_0_compat; [apply Rmult_lt_0_compat; lra|exact L0].
        - apply (Rmult_lt_reg_r (INR l)); [exact L0|]. unfold Rdiv. rewrite Rmult_assoc, Rinv_l by lra. rewrite Rmult_1_r. apply Rmult_lt_compat_l; lra. }
      generalize dependent (ang l (Z.of_nat j)). intros a _ A E.
      assert (S0 : 0 < sin (a / 2)) by (apply sin_gt_0; lra).
      assert (D : cos a = 1 - 2 * sin (a / 2) * sin (a / 2)). { replace a with (2 * (a / 2)) at 1 by field. apply cos_2a_sin. }
      assert (0 < sin (a / 2) * sin (a / 2)) by (apply Rmult_lt_0_compat; exact S0). lra. }
    generalize dependent (cos (ang l (Z.of_nat j))). generalize (sin (ang l (Z.of_nat j))).
    destruct (@sum (Cr Rring) (fun k => sin_cos Rring rtrig l (Z.of_nat k * Z.of_nat j)) l) as [a b].
    intros s c T C. cbn in T, a, b. injection T as T1 T2.
    assert (N : (c - 1) * (c - 1) + s * s <> 0).
    { assert (0 < (c - 1) * (c - 1)) by (apply Rsqr_pos_lt; lra). assert (0 <= s * s) by apply Rle_0_sqr. lra. }
    assert (A : ((c - 1) * (c - 1) + s * s) * a = 0).
    { replace (((c - 1) * (c - 1) + s * s) * a) with ((c - 1) * ((c - 1) * a - (s - 0) * b) + s * ((c - 1) * b + (s - 0) * a)) by ring. rewrite T1, T2. ring. }
    assert (B : ((c - 1) * (c - 1) + s * s) * b = 0).
    { replace (((c - 1) * (c - 1) + s * s) * b) with ((c - 1) * ((c - 1) * b + (s - 0) * a) - s * ((c - 1) * a - (s - 0) * b)) by ring. rewrite T1, T2. ring. }
    cbn. f_equal; [destruct (Rmult_integral _ _ A)|destruct (Rmult_integral _ _ B)]; tauto.
Qed.
