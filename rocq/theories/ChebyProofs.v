From Coq Require Import ZArith Reals Lra Lia List Bool Arith.
From Verif Require Import Base Dft DftInv DftReals Cheby.
Import ListNotations.
Local Open Scope R_scope.

(** ** Hyperbolic cosine *)
Lemma cosh_neg x : cosh (- x) = cosh x.
Proof. unfold cosh. rewrite Ropp_involutive. field. Qed.
Lemma cosh_addsub a b : cosh (a + b) = 2 * cosh b * cosh a - cosh (a - b).
Proof.
  unfold cosh. replace (- (a + b)) with (- a + - b) by ring. replace (a - b) with (a + - b) by ring. replace (- (a + - b)) with (- a + b) by ring. rewrite !exp_plus. field.
Qed.
Lemma exp_inv x : exp x * exp (- x) = 1.
Proof. rewrite <- exp_plus. replace (x + - x) with 0 by ring. apply exp_0. Qed.
Lemma cosh_gt1 x : 0 < x -> 1 < cosh x.
Proof.
  intros H. unfold cosh. pose proof (exp_increasing 0 x H) as E. rewrite exp_0 in E. pose proof (exp_inv x) as I. pose proof (exp_pos (- x)). nra.
Qed.
Lemma cosh_ge1 x : 1 <= cosh x.
Proof.
  destruct (Rtotal_order x 0) as [L|[->|L]].
  - rewrite <- cosh_neg. apply Rlt_le, cosh_gt1. lra.
  - rewrite cosh_0. lra.
  - apply Rlt_le, cosh_gt1, L.
Qed.
Lemma cosh_2 x : cosh (2 * x) = 2 * (cosh x * cosh x) - 1.
Proof. replace (2 * x) with (x + x) by ring. rewrite cosh_addsub. replace (x - x) with 0 by ring. rewrite cosh_0. ring. Qed.
Lemma sinh_pos x : 0 <= x -> 0 <= sinh x.
Proof. intros H. unfold sinh. destruct (Req_dec x 0) as [->|N]; [rewrite Ropp_0; lra|]. pose proof (exp_increasing (- x) x ltac:(lra)). lra. Qed.
Lemma acosh_elem_cosh t : 0 <= t -> acosh_elem (cosh t) = t.
Proof.
  intros H. unfold acosh_elem. replace (cosh t * cosh t - 1) with (Rsqr (sinh t)).
  - rewrite sqrt_Rsqr by (apply sinh_pos, H). replace (cosh t + sinh t) with (exp t) by (unfold cosh, sinh; field). apply ln_exp.
  - unfold Rsqr, cosh, sinh. pose proof (exp_inv t). nra.
Qed.
Lemma acosh_same u : 1 <= u -> acosh u = acosh_elem u.
Proof. intros H. unfold acosh, acosh_elem. rewrite <- sqrt_mult by lra. do 3 f_equal. ring. Qed.
Lemma cosh_acosh u : 1 <= u -> cosh (acosh_elem u) = u.
Proof.
  intros H. unfold acosh_elem. set (s := sqrt (u * u - 1)). assert (S0 : 0 <= s) by apply sqrt_pos. assert (S2 : s * s = u * u - 1) by (apply sqrt_sqrt; nra).
  unfold cosh. rewrite exp_Ropp, exp_ln by lra. assert (I : / (u + s) = u - s). { apply (Rmult_eq_reg_l (u + s)); [|lra]. rewrite Rinv_r by lra. nra. } rewrite I. field.
Qed.
Lemma acosh_pos u : 1 < u -> 0 < acosh_elem u.
Proof. intros H. unfold acosh_elem. rewrite <- ln_1. apply ln_increasing; [lra|]. pose proof (sqrt_pos (u * u - 1)). lra. Qed.
Lemma acosh_nonneg u : 1 <= u -> 0 <= acosh_elem u.
Proof. intros H. destruct (Req_dec u 1) as [->|N]; [|apply Rlt_le, acosh_pos; lra]. unfold acosh_elem. replace (1 * 1 - 1) with 0 by ring. rewrite sqrt_0, Rplus_0_r, ln_1. lra. Qed.

(** ** Chebyshev polynomials *)
Lemma two_step (P : nat -> Prop) : P 0%nat -> P 1%nat -> (forall n, P n -> P (S n) -> P (S (S n))) -> forall n, P n.
Proof. intros A B C n. assert (P n /\ P (S n)) as [H _]; [|exact H]. induction n as [|n [H1 H2]]; auto. Qed.
Lemma T_SS n x : T (S (S n)) x = 2 * x * T (S n) x - T n x.
Proof. reflexivity. Qed.
Lemma T_cos n t : T n (cos t) = cos (INR n * t).
Proof.
  revert n. apply two_step.
  - cbn [T INR]. rewrite Rmult_0_l, cos_0. reflexivity.
  - cbn [T INR]. rewrite Rmult_1_l. reflexivity.
  - intros n H1 H2. rewrite T_SS, H1, H2, !S_INR. replace ((INR n + 1 + 1) * t) with ((INR n + 1) * t + t) by ring. rewrite cos_plus.
    replace (INR n * t) with ((INR n + 1) * t - t) by ring. rewrite cos_minus. ring.
Qed.
Lemma T_cosh n t : T n (cosh t) = cosh (INR n * t).
Proof.
  revert n. apply two_step.
  - cbn [T INR]. rewrite Rmult_0_l, cosh_0. reflexivity.
  - cbn [T INR]. rewrite Rmult_1_l. reflexivity.
  - intros n H1 H2. rewrite T_SS, H1, H2, !S_INR. replace ((INR n + 1 + 1) * t) with ((INR n + 1) * t + t) by ring. rewrite cosh_addsub.
    replace ((INR n + 1) * t - t) with (INR n * t) by ring. ring.
Qed.
Lemma T_opp n x : T n (- x) = (if Nat.even n then 1 else -1) * T n x.
Proof.
  revert n. apply two_step; [cbn; ring|cbn; ring|]. intros n H1 H2. rewrite !T_SS, H1, H2. change (Nat.even (S (S n))) with (Nat.even n). rewrite Nat.even_succ, <- Nat.negb_even. destruct (Nat.even n); cbn [negb]; ring.
Qed.
Fixpoint U (n : nat) (x : R) : R :=
  match n with
  | O => 1
  | S m => match m with O => 2 * x | S p => 2 * x * U m x - U p x end
  end.
Lemma U_SS n x : U (S (S n)) x = 2 * x * U (S n) x - U n x.
Proof. reflexivity. Qed.
Lemma U_T n x : U (S (S n)) x = U n x + 2 * T (S (S n)) x.
Proof.
  revert n. apply two_step; [cbn; ring|cbn; ring|]. intros n H1 H2.
  rewrite (U_SS (S (S n)) x), H2, H1, (T_SS (S (S n)) x), (U_SS n x) in *. lra.
Qed.
Notation sumR := (@sum Rring).
Ltac rr := match goal with |- @eq _ ?a ?b => change (@eq R a b) end; cbn [radd rmul rsub ropp r0 r1 Rring]; ring.
(** Expansion of T and U around another point. *)
Definition conv (g : nat -> R) (x : R) (m : nat) : R := sumR (fun j => g j * U (m - 1 - j) x) m.
Lemma conv_step (g : nat -> R) (x : R) m :
  sumR (fun j => g j * U (S m - j) x) (S (S m)) = 2 * x * sumR (fun j => g j * U (m - j) x) (S m) - sumR (fun j => g j * U (m - 1 - j) x) m + g (S m).
Proof.
  cbn [sum]. rewrite !Nat.sub_diag. replace (S m - m)%nat with 1%nat by lia. cbn [U].
  assert (E : sumR (fun j => g j * U (S m - j) x) m = 2 * x * sumR (fun j => g j * U (m - j) x) m - sumR (fun j => g j * U (m - 1 - j) x) m).
  { assert (Q : forall k, (k <= m)%nat -> sumR (fun j => g j * U (S m - j) x) k = 2 * x * sumR (fun j => g j * U (m - j) x) k - sumR (fun j => g j * U (m - 1 - j) x) k); [|apply Q; lia].
    induction k as [|k IH]; intros Hk; [cbn; ring|]. cbn [sum]. rewrite IH by lia. replace (S m - k)%nat with (S (S (m - 1 - k))) by lia. rewrite U_SS. replace (S (m - 1 - k)) with (m - k)%nat by lia. cbn. ring. }
  cbn in *. rewrite E. ring.
Qed.
Lemma conv_SS g x m : conv g x (S (S m)) = 2 * x * conv g x (S m) - conv g x m + g (S m).
Proof.
  unfold conv. replace (S m - 1)%nat with m by lia. replace (S (S m) - 1)%nat with (S m) by lia. apply conv_step.
Qed.
Lemma U_exp m x c : U m x = U m c + 2 * (x - c) * conv (fun j => U j c) x m.
Proof.
  revert m. apply two_step; [cbn; ring|cbn; ring|]. intros m H1 H2. rewrite conv_SS, (U_SS m x), (U_SS m c). rewrite H2 at 1. rewrite H1 at 1. ring.
Qed.
Lemma T_exp m x c : T m x = T m c + (x - c) * conv (fun j => (if Nat.eqb j 0 then 1 else 2) * T j c) x m.
Proof.
  revert m. apply two_step; [cbn; ring|cbn; ring|]. intros m H1 H2. rewrite conv_SS, (T_SS m x), (T_SS m c). rewrite H2 at 1. rewrite H1 at 1. cbn [Nat.eqb]. ring.
Qed.

(** ** Cosine sums with coefficients that are not negative *)
Inductive cone : (R -> R) -> Prop :=
| cone_cos j r : 0 <= r -> cone (fun f => r * cos (INR j * f))
| cone_add g h : cone g -> cone h -> cone (fun f => g f + h f)
| cone_ext g h : cone g -> (forall f, g f = h f) -> cone h.
Lemma cone_const r : 0 <= r -> cone (fun _ => r).
Proof. intros H. apply (cone_ext (fun f => r * cos (INR 0 * f))); [apply cone_cos, H|]. intros f. cbn [INR]. rewrite Rmult_0_l, cos_0. ring. Qed.
Lemma cone_mul_cos j r g : 0 <= r -> cone g -> cone (fun f => r * cos (INR j * f) * g f).
Proof.
  intros H G. induction G as [k q Hq|g h _ IHg _ IHh|g h _ IH E].
  - assert (W : forall a b p, (b <= a)%nat -> 0 <= p -> cone (fun f => p * (cos (INR a * f) * cos (INR b * f)))).
    { intros a b p L P. apply (cone_ext (fun f => p / 2 * cos (INR (a + b) * f) + p / 2 * cos (INR (a - b) * f))).
      - apply cone_add; apply cone_cos; lra.
      - intros f. rewrite plus_INR, minus_INR, Rmult_plus_distr_r, Rmult_minus_distr_r, cos_plus, cos_minus by exact L. field. }
    destruct (le_ge_dec k j) as [L|L]; [eapply cone_ext; [apply (W j k (r * q) L ltac:(nra))|]|eapply cone_ext; [apply (W k j (r * q) L ltac:(nra))|]]; intros f; cbn beta; ring.
  - eapply cone_ext; [apply cone_add; [exact IHg|exact IHh]|]. intros f. cbn beta. ring.
  - eapply cone_ext; [exact IH|]. intros f. cbn beta. rewrite E. reflexivity.
Qed.
Lemma cone_mul g h : cone g -> cone h -> cone (fun f => g f * h f).
Proof.
  intros G H. induction G as [k q Hq|g g' _ IHg _ IHg'|g g' _ IH E].
  - apply cone_mul_cos; assumption.
  - eapply cone_ext; [apply cone_add; [exact IHg|exact IHg']|]. intros f. cbn beta. ring.
  - eapply cone_ext; [exact IH|]. intros f. cbn beta. rewrite E. reflexivity.
Qed.
Lemma cone_sum (g : nat -> R -> R) n : (forall j, (j < n)%nat -> cone (g j)) -> cone (fun f => sumR (fun j => g j f) n).
Proof.
  induction n as [|n IH]; intros H; [cbn [sum]; apply (cone_const 0); lra|]. cbn [sum]. apply (cone_add (fun f => sumR (fun j => g j f) n) (g n)); [apply IH; intros; apply H; lia|apply H; lia].
Qed.
Lemma cone_T j : cone (fun f => T j (cos f)).
Proof. eapply cone_ext; [apply (cone_cos j 1); lra|]. intros f. cbn beta. rewrite T_cos. ring. Qed.
Lemma cone_c : cone cos.
Proof. eapply cone_ext; [apply (cone_T 1)|]. intros f. reflexivity. Qed.
Lemma cone_scale r g : 0 <= r -> cone g -> cone (fun f => r * g f).
Proof. intros H G. apply (cone_mul (fun _ => r) g); [apply cone_const, H|exact G]. Qed.
Lemma cone_U j : cone (fun f => U j (cos f)).
Proof.
  revert j. apply two_step.
  - cbn [U]. apply cone_const. lra.
  - cbn [U]. apply cone_scale; [lra|apply cone_c].
  - intros j H1 _. eapply cone_ext; [apply (cone_add _ _ H1 (cone_scale 2 _ ltac:(lra) (cone_T (S (S j)))))|]. intros f. cbn beta. symmetry. apply U_T.
Qed.
Section Scaled.
Variable s : R.
Hypothesis s1 : 1 <= s.
Lemma cone_B : cone (fun f => s * cos f - cos f).
Proof. eapply cone_ext; [apply (cone_scale (s - 1) cos); [lra|apply cone_c]|]. intros f. cbn beta. ring. Qed.
Lemma cone_Us m : cone (fun f => U m (s * cos f)) /\ cone (fun f => U m (s * cos f) - U m (cos f)).
Proof.
  induction m as [m IH] using lt_wf_ind.
  assert (D : cone (fun f => U m (s * cos f) - U m (cos f))).
  { apply (cone_ext (fun f => 2 * ((s * cos f - cos f) * conv (fun j => U j (cos f)) (s * cos f) m))).
    - apply cone_scale; [lra|]. apply (cone_mul (fun f => s * cos f - cos f)); [apply cone_B|]. unfold conv.
      apply (cone_sum (fun j f => U j (cos f) * U (m - 1 - j) (s * cos f))). intros j Hj. apply (cone_mul (fun f => U j (cos f))); [apply cone_U|]. apply IH. lia.
    - intros f. rewrite (U_exp m (s * cos f) (cos f)). ring. }
  split; [|exact D]. eapply cone_ext; [apply (cone_add _ _ (cone_U m) D)|]. intros f. cbn beta. ring.
Qed.
(** T_n(s cos f) exceeds (s-1) cos f U_{n-1}(cos f). *)
Lemma cone_Ts n : cone (fun f => T (S n) (s * cos f) - (s - 1) * (cos f * U n (cos f))).
Proof.
  apply (cone_ext (fun f => T (S n) (cos f) + ((s - 1) * (cos f * (U n (s * cos f) - U n (cos f))) +
     (s - 1) * (cos f * sumR (fun j => 2 * T (S j) (cos f) * U (n - S j) (s * cos f)) n)))).
  - apply (cone_add (fun f => T (S n) (cos f))); [apply cone_T|].
    apply (cone_add (fun f => (s - 1) * (cos f * (U n (s * cos f) - U n (cos f))))).
    + apply cone_scale; [lra|]. apply (cone_mul cos); [apply cone_c|]. apply cone_Us.
    + apply cone_scale; [lra|]. apply (cone_mul cos); [apply cone_c|]. apply (cone_sum (fun j f => 2 * T (S j) (cos f) * U (n - S j) (s * cos f))).
      intros j Hj. apply (cone_mul (fun f => 2 * T (S j) (cos f))); [apply cone_scale; [lra|apply cone_T]|]. apply cone_Us.
  - intros f. rewrite (T_exp (S n) (s * cos f) (cos f)). unfold conv. rewrite (sum_first Rring). cbn [Nat.eqb].
    replace (S n - 1)%nat with n by lia. rewrite Nat.sub_0_r. change (T 0 (cos f)) with 1. cbn [radd Rring]. ring.
Qed.
End Scaled.
Lemma cone_U_even n : Nat.even n = true -> cone (fun f => U n (cos f) - 1).
Proof.
  assert (H : forall n, (Nat.even n = true -> cone (fun f => U n (cos f) - 1)) ); [|apply H]. apply (two_step (fun n => Nat.even n = true -> cone (fun f => U n (cos f) - 1))).
  - intros _. eapply cone_ext; [apply (cone_const 0); lra|]. intros f. cbn. ring.
  - discriminate.
  - intros k H _ E. specialize (H E). eapply cone_ext; [apply (cone_add _ _ H (cone_scale 2 _ ltac:(lra) (cone_T (S (S k)))))|]. intros f. cbn beta. rewrite (U_T k (cos f)). ring.
Qed.
Lemma cone_U_odd n : Nat.even n = false -> cone (fun f => U n (cos f) - 2 * cos f).
Proof.
  revert n. apply (two_step (fun n => Nat.even n = false -> cone (fun f => U n (cos f) - 2 * cos f))).
  - discriminate.
  - intros _. eapply cone_ext; [apply (cone_const 0); lra|]. intros f. cbn. ring.
  - intros k H _ E. specialize (H E). eapply cone_ext; [apply (cone_add _ _ H (cone_scale 2 _ ltac:(lra) (cone_T (S (S k)))))|]. intros f. cbn beta. rewrite (U_T k (cos f)). ring.
Qed.

(** ** Sums over the sample points *)
Definition phi (N k : nat) : R := PI * INR k / INR N.
Lemma N_pos N : (0 < N)%nat -> 0 < INR N.
Proof. apply lt_0_INR. Qed.
Lemma phi_refl N k : (0 < N)%nat -> (k <= N)%nat -> phi N (N - k) = PI - phi N k.
Proof. intros H L. unfold phi. rewrite minus_INR by exact L. pose proof (N_pos N H). field. lra. Qed.
Lemma cos_kPI m t : cos (INR m * PI - t) = (if Nat.even m then 1 else -1) * cos t /\ sin (INR m * PI - t) = (if Nat.even m then -1 else 1) * sin t.
Proof.
  revert m. induction m as [|m [H1 H2]].
  - cbn [INR Nat.even]. rewrite Rmult_0_l, cos_minus, sin_minus, cos_0, sin_0. split; ring.
  - rewrite S_INR, Nat.even_succ, <- Nat.negb_even. replace ((INR m + 1) * PI - t) with (INR m * PI - t + PI) by ring. rewrite neg_cos, neg_sin, H1, H2. destruct (Nat.even m); cbn [negb]; split; ring.
Qed.
Lemma anti_sum (h : nat -> R) N : h 0%nat = 0 -> (forall k, (0 < k < N)%nat -> h (N - k)%nat = - h k) -> sumR h N = 0.
Proof.
  intros H0 H. destruct N as [|N]; [reflexivity|]. rewrite (sum_first Rring). cbn. rewrite H0.
  assert (E : sumR (fun i => h (S i)) N = - sumR (fun i => h (S i)) N).
  { rewrite (sum_rev Rring) at 1. transitivity (sumR (fun i => -1 * h (S i)) N).
    - apply (sum_ext Rring). intros i Hi. replace (S (N - 1 - i)) with (S N - S i)%nat by lia. rewrite H by lia. change (- h (S i) = -1 * h (S i))%R. ring.
    - rewrite (sum_mul_l Rring (-1)). cbn. ring. }
  lra.
Qed.
Lemma fst_sum (f : nat -> complexR) n : fst (@sum (Cr Rring) f n) = sumR (fun i => fst (f i)) n.
Proof. induction n as [|n IH]; [reflexivity|]. cbn [sum]. rewrite <- IH. reflexivity. Qed.
Lemma snd_sum (f : nat -> complexR) n : snd (@sum (Cr Rring) f n) = sumR (fun i => snd (f i)) n.
Proof. induction n as [|n IH]; [reflexivity|]. cbn [sum]. rewrite <- IH. reflexivity. Qed.
Lemma cos_sum N j : (0 < N)%nat -> 0 <= sumR (fun k => cos (INR j * phi N k)) N.
Proof.
  intros H. pose proof (N_pos N H) as P. destruct (Nat.Even_or_Odd j) as [[i ->]|[i ->]].
  - assert (Q : forall k, cos (INR (2 * i) * phi N k) = fst (sin_cos Rring rtrig N (Z.of_nat k * Z.of_nat (i mod N)))).
    { intros k. assert (E : sin_cos Rring rtrig N (Z.of_nat k * Z.of_nat i) = sin_cos Rring rtrig N (Z.of_nat k * Z.of_nat (i mod N))).
      { rewrite (Nat.div_mod i N) at 1 by lia. replace (Z.of_nat k * Z.of_nat (N * (i / N) + i mod N))%Z with (Z.of_nat (k * (i / N)) * Z.of_nat N + Z.of_nat k * Z.of_nat (i mod N))%Z by lia.
        rewrite (ex_add _ _ _ (exact_reals N H)), (W_mul_l Rring rtrig N (exact_reals N H) (Z.of_nat (k * (i / N))) 0). apply (Ring_theory.Rmul_1_l (r_th (Cr Rring))). }
      rewrite <- E. cbn [sin_cos fst rtrig cs]. f_equal. rewrite mult_IZR, <- !INR_IZR_INZ, mult_INR. unfold phi. cbn [INR]. field. lra. }
    rewrite (sum_ext Rring _ _ N (fun k _ => Q k)). rewrite <- (fst_sum (fun k => sin_cos Rring rtrig N (Z.of_nat k * Z.of_nat (i mod N)))).
    destruct (Nat.eq_dec (i mod N) 0) as [E|E].
    + rewrite E. assert (Z0 : forall n, 0 <= fst (@sum (Cr Rring) (fun k => sin_cos Rring rtrig N (Z.of_nat k * Z.of_nat 0)) n)); [|apply Z0].
      induction n as [|n IH]; [cbn; lra|]. cbn [sum]. replace (Z.of_nat n * Z.of_nat 0)%Z with 0%Z by lia. rewrite (ex_0 _ _ _ (exact_reals N H)). change (0 <= fst (@sum (Cr Rring) (fun k => sin_cos Rring rtrig N (Z.of_nat k * Z.of_nat 0)) n) + 1). lra.
    + pose proof (Nat.mod_upper_bound i N ltac:(lia)). rewrite (ex_sum _ _ _ (exact_reals N H) (i mod N)) by lia. cbn. lra.
  - destruct N as [|N]; [lia|]. rewrite (sum_first Rring).
    assert (E : sumR (fun k => if Nat.eqb k 0 then 0 else cos (INR (2 * i + 1) * phi (S N) k)) (S N) = 0).
    { apply anti_sum; [reflexivity|]. intros k Hk. destruct (Nat.eqb_spec (S N - k) 0), (Nat.eqb_spec k 0); try lia. rewrite phi_refl by lia.
      rewrite Rmult_minus_distr_l. rewrite (proj1 (cos_kPI (2 * i + 1) _)). replace (2 * i + 1)%nat with (S (2 * i)) by lia. rewrite Nat.even_succ, Nat.odd_mul. cbn. ring. }
    rewrite (sum_first Rring) in E. cbn [Nat.eqb] in E. cbn [radd Rring] in E |- *. rewrite Rplus_0_l in E. cbn in E |- *. rewrite E.
    unfold phi. cbn [INR]. replace (PI * 0 / _) with 0 by (unfold Rdiv; ring). rewrite Rmult_0_r, cos_0. lra.
Qed.
Lemma cone_samples g N : (0 < N)%nat -> cone g -> 0 <= sumR (fun k => g (phi N k)) N.
Proof.
  intros H G. induction G as [j r Hr|g h _ IHg _ IHh|g h _ IH E].
  - rewrite (sum_mul_l Rring r). pose proof (cos_sum N j H). cbn. apply Rmult_le_pos; assumption.
  - rewrite (sum_add Rring). cbn. lra.
  - rewrite (sum_ext Rring _ (fun k => g (phi N k)) N); [exact IH|]. intros k _. symmetry. apply E.
Qed.

(** ** The function *)
Definition eps_ (N : nat) : nat := if Nat.even N then 1 else 0.
Section Fn.
Variables (N : nat) (ripple : R).
Hypothesis N2 : (1 < N)%nat.
Let dp := ch_dp ripple.
Definition ch_s : R := cosh (acosh ((1 + ch_dp ripple) / ch_dp ripple) / (INR N - 1)).
Lemma dp_pos : 0 < ch_dp ripple.
Proof. unfold ch_dp, Rpower. apply exp_pos. Qed.
Lemma N1 : 1 <= INR N - 1.
Proof. assert (INR 2 <= INR N) by (apply le_INR; lia). cbn in H. lra. Qed.
Lemma ratio_gt1 : 1 < (1 + ch_dp ripple) / ch_dp ripple.
Proof. pose proof dp_pos. apply (Rmult_lt_reg_r (ch_dp ripple)); [assumption|]. unfold Rdiv. rewrite Rmult_assoc, Rinv_l by lra. lra. Qed.
Lemma z_pos : 0 < acosh ((1 + ch_dp ripple) / ch_dp ripple) / (INR N - 1).
Proof. pose proof ratio_gt1. pose proof N1. rewrite acosh_same by lra. apply Rdiv_lt_0_compat; [apply acosh_pos; assumption|lra]. Qed.
Lemma s_gt1 : 1 < ch_s.
Proof. apply cosh_gt1, z_pos. Qed.
(** The polynomial of degree N-1 takes the wanted ratio at s. *)
Lemma T_at_s : T (N - 1) ch_s = (1 + ch_dp ripple) / ch_dp ripple.
Proof.
  unfold ch_s. rewrite T_cosh, minus_INR by lia. pose proof N1. replace (INR (1)) with 1 by reflexivity.
  replace ((INR N - 1) * (acosh ((1 + ch_dp ripple) / ch_dp ripple) / (INR N - 1))) with (acosh ((1 + ch_dp ripple) / ch_dp ripple)) by (field; lra).
  pose proof ratio_gt1. rewrite acosh_same by lra. apply cosh_acosh. lra.
Qed.
Lemma x0_eq : ch_x0 N ripple = 2 * (ch_s * ch_s) - 1.
Proof.
  unfold ch_x0, ch_df. cbv zeta. fold ch_s. pose proof s_gt1 as S1. pose proof PI_RGT_0.
  replace (2 * PI * (acos (1 / ch_s) / PI)) with (2 * acos (1 / ch_s)) by (field; lra).
  rewrite cos_2a_cos, cos_acos.
  - field. split; nra.
  - assert (0 < 1 / ch_s) by (apply Rdiv_lt_0_compat; lra). assert (1 / ch_s <= 1) by (apply (Rmult_le_reg_r ch_s); [lra|]; unfold Rdiv; rewrite Rmult_assoc, Rinv_l; lra). lra.
Qed.
Definition u_ (i : nat) : R := ch_s * cos (phi N i).
Lemma x_eq i : ch_x N ripple i = 2 * (u_ i * u_ i) - 1.
Proof.
  unfold ch_x, ch_f. cbv zeta. rewrite x0_eq. pose proof N1. replace (2 * PI * (0 + INR i * (1 / INR N))) with (2 * phi N i) by (unfold phi; field; lra).
  rewrite cos_2a_cos. unfold u_. field.
Qed.
Lemma x_ge i : -1 <= ch_x N ripple i.
Proof. rewrite x_eq. pose proof (Rle_0_sqr (u_ i)) as H. unfold Rsqr in H. lra. Qed.
Lemma acos_half a : 0 <= a <= 1 -> acos (2 * (a * a) - 1) = 2 * acos a.
Proof.
  intros H. pose proof (acos_bound a) as [B0 B1]. assert (Q : acos a <= PI / 2). { apply Rnot_lt_le. intros G. assert (cos (acos a) < 0) by (apply cos_lt_0; pose proof PI_RGT_0; lra). rewrite cos_acos in H0 by lra. lra. }
  rewrite <- (cos_acos a) at 1 2 by lra. replace (2 * (cos (acos a) * cos (acos a)) - 1) with (cos (2 * acos a)) by (rewrite cos_2a_cos; ring). apply acos_cos. lra.
Qed.
Lemma wf_eq i : ch_wf N ripple i = ch_dp ripple * T (N - 1) (Rabs (u_ i)).
Proof.
  unfold ch_wf. cbv zeta. rewrite x_eq. f_equal. set (a := Rabs (u_ i)). assert (A0 : 0 <= a) by apply Rabs_pos. assert (A2 : u_ i * u_ i = a * a). { unfold a. pose proof (Rsqr_abs (u_ i)) as Q. unfold Rsqr in Q. exact Q. }
  rewrite A2. assert (NN : INR (N - 1) = INR N - 1) by (rewrite minus_INR by lia; reflexivity).
  destruct (Rle_lt_dec a 1) as [L|L].
  - assert (R1 : -1 <= 2 * (a * a) - 1 <= 1) by nra. destruct (Rlt_dec 1 _) as [G|G]; [exfalso; destruct (Rle_dec 0 (2 * (a * a) - 1)); lra|].
    assert (CL : clip_elem (-1) 1 (-1) 1 (2 * (a * a) - 1) = 2 * (a * a) - 1). { unfold clip_elem. destruct (Rle_dec _ (-1)); [lra|]. destruct (Rlt_dec _ 1); lra. }
    rewrite CL, (acos_half a ltac:(lra)). replace (T (N - 1) a) with (cos (INR (N - 1) * acos a)) by (rewrite <- T_cos, cos_acos by lra; reflexivity). rewrite NN. rewrite Rmult_0_l, Rplus_0_l, Rminus_0_r, Rmult_1_l. f_equal. field.
  - destruct (Rle_dec 0 (2 * (a * a) - 1)) as [_|G]; [|exfalso; nra]. destruct (Rlt_dec 1 (2 * (a * a) - 1)) as [_|G]; [|exfalso; nra].
    replace (T (N - 1) a) with (cosh (INR (N - 1) * acosh_elem a)) by (rewrite <- T_cosh, cosh_acosh by lra; reflexivity). rewrite NN.
    assert (AC : acosh_elem (2 * (a * a) - 1) = 2 * acosh_elem a).
    { rewrite <- (acosh_elem_cosh (2 * acosh_elem a)) by (pose proof (acosh_nonneg a ltac:(lra)); lra). rewrite cosh_2, cosh_acosh by lra. reflexivity. }
    rewrite AC. replace (1 - 1) with 0 by ring. rewrite Rmult_0_l, Rplus_0_r, Rmult_1_l. f_equal. field.
Qed.
Lemma phi_lt i : (i < N)%nat -> 0 <= phi N i < PI.
Proof.
  intros H. unfold phi. pose proof N1. pose proof PI_RGT_0. pose proof (pos_INR i). assert (INR i < INR N) by (apply lt_INR; exact H). split.
  - apply Rmult_le_pos; [nra|]. apply Rlt_le, Rinv_0_lt_compat. lra.
  - apply (Rmult_lt_reg_r (INR N)); [lra|]. unfold Rdiv. rewrite Rmult_assoc, Rinv_l by lra. nra.
Qed.
Lemma phi_half i : (i <= N / 2)%nat -> phi N i <= PI / 2.
Proof.
  intros H. unfold phi. pose proof N1. pose proof PI_RGT_0. assert (Q : (2 * i <= N)%nat) by lia. apply le_INR in Q. rewrite mult_INR in Q. cbn in Q.
  apply (Rmult_le_reg_r (INR N)); [lra|]. unfold Rdiv at 1. rewrite Rmult_assoc, Rinv_l by lra. nra.
Qed.
Lemma phi_half2 i : Nat.even N = true -> (N / 2 <= i)%nat -> PI / 2 <= phi N i.
Proof.
  intros E H. unfold phi. pose proof N1. pose proof PI_RGT_0. apply Nat.even_spec in E. destruct E as [h E]. assert (Q : (N <= 2 * i)%nat) by (rewrite E in H |- *; replace (2 * h / 2)%nat with h in H by (rewrite Nat.mul_comm, Nat.div_mul; lia); lia). apply le_INR in Q. rewrite mult_INR in Q. cbn in Q.
  apply (Rmult_le_reg_r (INR N)); [lra|]. unfold Rdiv at 2. rewrite Rmult_assoc, Rinv_l by lra. nra.
Qed.
Lemma wf2_eq i : (i < N)%nat -> ch_wf2 N ripple i =
  (ch_dp ripple * T (N - 1) (u_ i) * cos (INR (eps_ N) * phi N i), - (ch_dp ripple * T (N - 1) (u_ i) * sin (INR (eps_ N) * phi N i))).
Proof.
  intros Hi. unfold ch_wf2, eps_. cbv zeta. rewrite wf_eq. pose proof s_gt1 as S1. pose proof (phi_lt i Hi) as P. pose proof N1.
  destruct (Nat.even N) eqn:E.
  - assert (M : (N mod 2 = 0)%nat). { apply Nat.even_spec in E. destruct E as [h E]. rewrite E, Nat.mul_comm. apply Nat.mod_mul. lia. }
    rewrite M. cbn [Nat.eqb]. unfold ch_f. replace (-1 * PI * (0 + INR i * (1 / INR N))) with (- phi N i) by (unfold phi; field; lra). rewrite cos_neg, sin_neg. cbn [INR fst snd]. rewrite Rmult_1_l.
    assert (O : Nat.even (N - 1) = false). { replace N with (S (N - 1)) in E by lia. rewrite Nat.even_succ, <- Nat.negb_even in E. destruct (Nat.even (N - 1)); [discriminate|reflexivity]. }
    destruct (Nat.leb_spec (N / 2) i) as [L|L].
    + assert (C : u_ i <= 0). { unfold u_. assert (cos (phi N i) <= 0) by (apply cos_le_0; pose proof (phi_half2 i E L); lra). nra. }
      rewrite Rabs_left1 by exact C. rewrite T_opp, O. f_equal; ring.
    + assert (C : 0 <= u_ i). { unfold u_. assert (0 <= cos (phi N i)) by (apply cos_ge_0; pose proof (phi_half i ltac:(lia)); lra). nra. }
      rewrite Rabs_pos_eq by exact C. f_equal; ring.
  - assert (M : (N mod 2 = 1)%nat). { assert (X : Nat.odd N = true) by (rewrite <- Nat.negb_even, E; reflexivity). apply Nat.odd_spec in X. destruct X as [h X]. rewrite X. rewrite Nat.add_comm, Nat.mul_comm, Nat.mod_add by lia. reflexivity. }
    rewrite M. cbn [Nat.eqb INR]. rewrite Rmult_0_l, cos_0, sin_0.
    assert (O : Nat.even (N - 1) = true). { replace N with (S (N - 1)) in E by lia. rewrite Nat.even_succ, <- Nat.negb_even in E. destruct (Nat.even (N - 1)); [reflexivity|discriminate]. }
    assert (Q : T (N - 1) (Rabs (u_ i)) = T (N - 1) (u_ i)). { unfold Rabs. destruct (Rcase_abs (u_ i)); [|reflexivity]. rewrite T_opp, O. ring. }
    rewrite Q. f_equal; ring.
Qed.
(** The coefficients: real, and not negative. *)
Definition coef (n : nat) : R := sumR (fun k => T (N - 1) (u_ k) * cos (INR (2 * n + eps_ N) * phi N k)) N.
Lemma u_refl k : (k <= N)%nat -> u_ (N - k) = - u_ k.
Proof. intros H. unfold u_. rewrite phi_refl by lia. replace (PI - phi N k) with (INR 1 * PI - phi N k) by (cbn; ring). rewrite (proj1 (cos_kPI 1 _)). cbn. ring. Qed.
Lemma even_pred : Nat.even (N - 1) = negb (Nat.even N).
Proof. replace N with (S (N - 1)) at 2 by lia. rewrite Nat.even_succ, <- Nat.negb_even, negb_involutive. reflexivity. Qed.
Lemma even_m n : Nat.even (2 * n + eps_ N) = negb (Nat.even N).
Proof. unfold eps_. rewrite Nat.even_add, Nat.even_mul. destruct (Nat.even N); reflexivity. Qed.
Lemma fft_eq n : ch_fft N ripple n = (ch_dp ripple / INR N * coef n, 0).
Proof.
  unfold ch_fft, DFT. pose proof N1. set (F := fun k => _).
  assert (E : @sum (Cr Rring) F N = (ch_dp ripple * coef n, 0)).
  { apply injective_projections.
    - rewrite fst_sum. cbn [fst]. unfold coef. change (@rmul Rring (ch_dp ripple) (coef n)) with (ch_dp ripple * coef n). rewrite <- (sum_mul_l Rring (ch_dp ripple)). apply (sum_ext Rring). intros k Hk. unfold F. rewrite wf2_eq by exact Hk.
      cbn [rmul Cr Rring fst snd sin_cos rtrig cs sn]. rewrite !mult_IZR, <- !INR_IZR_INZ, plus_INR, mult_INR.
      replace (2 * PI * (-1 * INR k * INR n) / INR N) with (- (INR 2 * INR n * phi N k)) by (unfold phi; cbn [INR]; field; lra). rewrite cos_neg, sin_neg, Rmult_plus_distr_r, cos_plus. rr.
    - rewrite snd_sum. cbn [snd]. apply anti_sum.
      + unfold F. rewrite wf2_eq by lia. cbn [rmul Cr Rring fst snd sin_cos rtrig cs sn]. rewrite !mult_IZR, <- !INR_IZR_INZ. cbn [INR].
        replace (phi N 0) with 0 by (unfold phi; cbn [INR]; unfold Rdiv; ring). replace (2 * PI * (-1 * 0 * INR n) / INR N) with 0 by (unfold Rdiv; ring). rewrite Rmult_0_r, sin_0. rr.
      + assert (G : forall k, (k < N)%nat -> snd (F k) = - (ch_dp ripple * (T (N - 1) (u_ k) * sin (INR (2 * n + eps_ N) * phi N k)))).
        { intros k Hk. unfold F. rewrite wf2_eq by exact Hk. cbn [rmul Cr Rring fst snd sin_cos rtrig cs sn]. rewrite !mult_IZR, <- !INR_IZR_INZ, plus_INR, mult_INR.
          replace (2 * PI * (-1 * INR k * INR n) / INR N) with (- (INR 2 * INR n * phi N k)) by (unfold phi; cbn [INR]; field; lra). rewrite cos_neg, sin_neg, Rmult_plus_distr_r, sin_plus. rr. }
        intros k Hk. rewrite !G by lia. rewrite u_refl, T_opp, phi_refl, Rmult_minus_distr_l by lia. rewrite (proj2 (cos_kPI _ _)), even_m, even_pred. destruct (Nat.even N); cbn [negb]; rr. }
  rewrite E. cbn [rmul Cr Rring fst snd ofR]. f_equal; cbn; field; lra.
Qed.
Lemma coef_cone n : coef n = sumR (fun k => (fun f => T (N - 1) (ch_s * cos f) * cos (INR (2 * n + eps_ N) * f)) (phi N k)) N.
Proof. reflexivity. Qed.
Lemma cone_cosj j : cone (fun f => cos (INR j * f)).
Proof. eapply cone_ext; [apply (cone_cos j 1); lra|]. intros f. cbn beta. ring. Qed.
Lemma cone_T1 : cone (fun f => T (N - 1) (ch_s * cos f)).
Proof.
  pose proof s_gt1. replace (N - 1)%nat with (S (N - 2)) by lia. eapply cone_ext; [apply (cone_add _ _ (cone_Ts ch_s ltac:(lra) (N - 2)) (cone_scale (ch_s - 1) _ ltac:(lra) (cone_mul _ _ cone_c (cone_U (N - 2)))))|].
  intros f. cbn beta. ring.
Qed.
Lemma coef_nonneg n : 0 <= coef n.
Proof. rewrite coef_cone. apply (cone_samples (fun f => T (N - 1) (ch_s * cos f) * cos (INR (2 * n + eps_ N) * f))); [lia|]. apply (cone_mul (fun f => T (N - 1) (ch_s * cos f))); [apply cone_T1|apply cone_cosj]. Qed.
Lemma sumR_nonneg (g : nat -> R) n : (forall k, (k < n)%nat -> 0 <= g k) -> 0 <= sumR g n.
Proof. induction n as [|n IH]; intros H; [cbn; lra|]. cbn [sum]. pose proof (H n ltac:(lia)). specialize (IH ltac:(intros; apply H; lia)). cbn in *. lra. Qed.
Lemma sumR_first (g : nat -> R) n : (forall k, (k < n)%nat -> 0 <= g k) -> (0 < n)%nat -> g 0%nat <= sumR g n.
Proof.
  intros H L. destruct n as [|n]; [lia|]. rewrite (sum_first Rring). pose proof (sumR_nonneg (fun i => g (S i)) n ltac:(intros; apply H; lia)) as Q. cbn in *. lra.
Qed.
Lemma coef_0_pos : 0 < coef 0.
Proof.
  pose proof s_gt1 as S1. rewrite coef_cone.
  assert (K : cone (fun f => T (N - 1) (ch_s * cos f) * cos (INR (2 * 0 + eps_ N) * f) - (ch_s - 1) * (cos f * cos f))).
  { assert (A : cone (fun f => (T (S (N - 2)) (ch_s * cos f) - (ch_s - 1) * (cos f * U (N - 2) (cos f))) * cos (INR (eps_ N) * f))).
    { apply (cone_mul (fun f => T (S (N - 2)) (ch_s * cos f) - (ch_s - 1) * (cos f * U (N - 2) (cos f)))); [apply cone_Ts; lra|apply cone_cosj]. }
    replace (S (N - 2)) with (N - 1)%nat in A by lia.
    destruct (Nat.even N) eqn:E.
    - assert (E2 : Nat.even (N - 2) = true). { destruct N as [|[|m]]; [lia|lia|]. cbn [Nat.even] in E. replace (S (S m) - 2)%nat with m by lia. exact E. }
      assert (B : cone (fun f => (ch_s - 1) * (cos f * cos f * (U (N - 2) (cos f) - 1)))).
      { apply cone_scale; [lra|]. apply (cone_mul (fun f => cos f * cos f)); [apply (cone_mul cos cos); apply cone_c|]. apply cone_U_even. exact E2. }
      eapply cone_ext; [apply (cone_add _ _ A B)|]. intros f. cbn beta. unfold eps_. rewrite E. cbn [Nat.mul Nat.add INR]. rewrite Rmult_1_l. ring.
    - assert (E2 : Nat.even (N - 2) = false). { destruct N as [|[|m]]; [lia|lia|]. cbn [Nat.even] in E. replace (S (S m) - 2)%nat with m by lia. exact E. }
      assert (B : cone (fun f => (ch_s - 1) * (cos f * (U (N - 2) (cos f) - 2 * cos f)))).
      { apply cone_scale; [lra|]. apply (cone_mul cos); [apply cone_c|]. apply cone_U_odd. exact E2. }
      assert (C : cone (fun f => (ch_s - 1) * (cos f * cos f))) by (apply cone_scale; [lra|]; apply (cone_mul cos cos); apply cone_c).
      eapply cone_ext; [apply (cone_add _ _ (cone_add _ _ A B) C)|]. intros f. cbn beta. unfold eps_. rewrite E. cbn [Nat.mul Nat.add INR]. rewrite Rmult_0_l, cos_0. ring. }
  pose proof (cone_samples _ N ltac:(lia) K) as P. cbn beta in P.
  assert (Q : sumR (fun k => T (N - 1) (ch_s * cos (phi N k)) * cos (INR (2 * 0 + eps_ N) * phi N k)) N =
              sumR (fun k => T (N - 1) (ch_s * cos (phi N k)) * cos (INR (2 * 0 + eps_ N) * phi N k) - (ch_s - 1) * (cos (phi N k) * cos (phi N k))) N + sumR (fun k => (ch_s - 1) * (cos (phi N k) * cos (phi N k))) N).
  { rewrite <- (sum_add Rring). apply (sum_ext Rring). intros. cbn. ring. }
  rewrite Q. assert (V : 0 < sumR (fun k => (ch_s - 1) * (cos (phi N k) * cos (phi N k))) N); [|cbn in *; lra].
  pose proof (sumR_first (fun k => (ch_s - 1) * (cos (phi N k) * cos (phi N k))) N ltac:(intros; nra) ltac:(lia)) as V1.
  cbn beta in V1. replace (phi N 0) with 0 in V1 by (unfold phi; cbn [INR]; unfold Rdiv; ring). rewrite cos_0 in V1. lra.
Qed.
Lemma cos_period m t : cos (2 * INR m * PI + t) = cos t.
Proof. rewrite Rplus_comm. apply cos_period. Qed.
Lemma coef_sym j j' q : (j + j' + eps_ N = q * N)%nat -> coef j = coef j'.
Proof.
  intros H. unfold coef. apply (sum_ext Rring). intros k _. change (@rmul Rring) with Rmult. f_equal. pose proof N1.
  replace (INR (2 * j + eps_ N) * phi N k) with (- (INR (2 * j' + eps_ N) * phi N k) + 2 * INR (q * k) * PI).
  - rewrite Rplus_comm, cos_period, cos_neg. reflexivity.
  - assert (E : INR j = INR q * INR N - INR j' - INR (eps_ N)) by (apply (f_equal INR) in H; rewrite !plus_INR, mult_INR in H; lra).
    rewrite !plus_INR, !mult_INR, E. unfold phi. cbn [INR]. field. lra.
Qed.
Lemma ang_opp n : ang N (- n) = - ang N n.
Proof. unfold ang. rewrite opp_IZR. pose proof N1. field. lra. Qed.
Definition hh : nat := ((N + 1) / 2)%nat.
Lemma hh_eq : (2 * hh + eps_ N = N + 1)%nat.
Proof.
  unfold hh, eps_. destruct (Nat.even N) eqn:E.
  - apply Nat.even_spec in E. destruct E as [h E]. rewrite E. replace (2 * h + 1)%nat with (1 + h * 2)%nat by lia. rewrite Nat.div_add by lia. cbn [Nat.div Nat.divmod fst]. lia.
  - assert (X : Nat.odd N = true) by (rewrite <- Nat.negb_even, E; reflexivity). apply Nat.odd_spec in X. destruct X as [h X]. rewrite X. replace (2 * h + 1 + 1)%nat with ((h + 1) * 2)%nat by lia. rewrite Nat.div_mul; lia.
Qed.
Definition wval (i : nat) : R := coef ((i + hh) mod N) / coef 0.
Lemma wval_sym i : (i < N)%nat -> wval i = wval (N - 1 - i).
Proof.
  intros H. unfold wval. f_equal. pose proof hh_eq as HH. pose proof (Nat.div_mod (i + hh) N ltac:(lia)) as D1. pose proof (Nat.div_mod (N - 1 - i + hh) N ltac:(lia)) as D2.
  apply (coef_sym _ _ (2 - (i + hh) / N - (N - 1 - i + hh) / N)). 
  pose proof (Nat.mod_upper_bound (i + hh) N ltac:(lia)). pose proof (Nat.mod_upper_bound (N - 1 - i + hh) N ltac:(lia)).
  set (a := ((i + hh) / N)%nat) in *. set (b := ((N - 1 - i + hh) / N)%nat) in *. set (p := ((i + hh) mod N)%nat) in *. set (q := ((N - 1 - i + hh) mod N)%nat) in *. clearbody a b p q.
  assert (Q : (p + q + eps_ N + N * (a + b) = 2 * N)%nat) by lia.
  assert (a + b <= 2)%nat by nia. rewrite !Nat.mul_sub_distr_r. nia.
Qed.
Lemma wval_mid : wval (N / 2) = 1.
Proof.
  unfold wval. assert (E : (N / 2 + hh = N)%nat). { pose proof hh_eq. unfold eps_, hh in *. destruct (Nat.even N) eqn:E; lia. }
  rewrite E, Nat.mod_same by lia. pose proof coef_0_pos. field. lra.
Qed.
Lemma wval_nonneg i : 0 <= wval i.
Proof. unfold wval. pose proof coef_0_pos. pose proof (coef_nonneg ((i + hh) mod N)). apply Rmult_le_pos; [assumption|]. apply Rlt_le, Rinv_0_lt_compat. assumption. Qed.
Lemma cheby_eq : cheby N ripple = Some (map wval (seq 0 N)).
Proof.
  unfold cheby. destruct (Nat.ltb_spec 1 N); [|lia]. cbv zeta. rewrite fft_eq. cbn [fst snd]. pose proof coef_0_pos. pose proof dp_pos. pose proof N1.
  assert (K : 0 < ch_dp ripple / INR N) by (apply Rdiv_lt_0_compat; lra). assert (P : 0 < ch_dp ripple / INR N * coef 0) by nra.
  destruct (Req_EM_T _ 0) as [Z|_]; [exfalso; nra|]. f_equal. apply map_ext. intros i. unfold wval. fold hh. rewrite fft_eq. cbn [rmul Cr fst snd]. match goal with |- @eq _ ?a ?b => change (@eq R a b) end. cbn [radd rmul rsub ropp r0 r1 Rring]. field. repeat split; lra.
Qed.
(** ** The spectrum *)
Definition mag (z : complexR) : R := fst z * fst z + snd z * snd z.
Lemma mag_mul (a b : complexR) : mag (@rmul (Cr Rring) a b) = mag a * mag b.
Proof. unfold mag. cbn. ring. Qed.
Lemma mag_sc l n : mag (sin_cos Rring rtrig l n) = 1.
Proof. unfold mag. rewrite sc. cbn [fst snd]. pose proof (sin2_cos2 (ang l n)) as Q. unfold Rsqr in Q. lra. Qed.
Lemma sc_mod a b : sin_cos Rring rtrig N (-1 * Z.of_nat a * Z.of_nat (b mod N)) = sin_cos Rring rtrig N (-1 * Z.of_nat a * Z.of_nat b).
Proof.
  assert (H : (0 < N)%nat) by lia. rewrite (Nat.div_mod b N) at 2 by lia.
  replace (-1 * Z.of_nat a * Z.of_nat (N * (b / N) + b mod N))%Z with ((-1 * Z.of_nat (a * (b / N))) * Z.of_nat N + -1 * Z.of_nat a * Z.of_nat (b mod N))%Z by lia.
  rewrite (ex_add _ _ _ (exact_reals N H)), (W_mul_l Rring rtrig N (exact_reals N H) (-1 * Z.of_nat (a * (b / N))) 0). symmetry. apply (Ring_theory.Rmul_1_l (r_th (Cr Rring))).
Qed.
Lemma DFT_shift (x : nat -> complexR) n : DFT Rring rtrig (-1) N x ((n + hh) mod N) = DFT Rring rtrig (-1) N (fun k => @rmul (Cr Rring) (x k) (sin_cos Rring rtrig N (-1 * Z.of_nat k * Z.of_nat hh))) n.
Proof.
  unfold DFT. apply (sum_ext (Cr Rring)). intros k _. rewrite sc_mod. replace (-1 * Z.of_nat k * Z.of_nat (n + hh))%Z with (-1 * Z.of_nat k * Z.of_nat hh + -1 * Z.of_nat k * Z.of_nat n)%Z by lia.
  rewrite (ex_add _ _ _ (exact_reals N ltac:(lia))). apply (Ring_theory.Rmul_assoc (r_th (Cr Rring))).
Qed.
Lemma DFT_conj (x : nat -> R) k : mag (DFT Rring rtrig (-1) N (fun n => (x n, 0)) k) = mag (DFT Rring rtrig 1 N (fun n => (x n, 0)) k).
Proof.
  assert (F : forall e, fst (DFT Rring rtrig e N (fun n => (x n, 0)) k) = sumR (fun n => x n * cos (ang N (e * Z.of_nat n * Z.of_nat k))) N /\ snd (DFT Rring rtrig e N (fun n => (x n, 0)) k) = sumR (fun n => x n * sin (ang N (e * Z.of_nat n * Z.of_nat k))) N).
  { intros e. unfold DFT. rewrite fst_sum, snd_sum. split; apply (sum_ext Rring); intros n _; rewrite sc; cbn [rmul Cr Rring fst snd]; rr. }
  unfold mag. destruct (F (-1)%Z) as [-> ->]. destruct (F 1%Z) as [-> ->].
  assert (A : sumR (fun n => x n * cos (ang N (-1 * Z.of_nat n * Z.of_nat k))) N = sumR (fun n => x n * cos (ang N (1 * Z.of_nat n * Z.of_nat k))) N).
  { apply (sum_ext Rring). intros n _. replace (-1 * Z.of_nat n * Z.of_nat k)%Z with (- (1 * Z.of_nat n * Z.of_nat k))%Z by lia. rewrite ang_opp, cos_neg. reflexivity. }
  assert (B : sumR (fun n => x n * sin (ang N (-1 * Z.of_nat n * Z.of_nat k))) N = -1 * sumR (fun n => x n * sin (ang N (1 * Z.of_nat n * Z.of_nat k))) N).
  { rewrite <- (sum_mul_l Rring (-1)). apply (sum_ext Rring). intros n _. replace (-1 * Z.of_nat n * Z.of_nat k)%Z with (- (1 * Z.of_nat n * Z.of_nat k))%Z by lia. rewrite ang_opp, sin_neg. rr. }
  rewrite A, B. ring.
Qed.
Lemma nat_r_eq n : nat_r Rring n = (INR n, 0).
Proof. induction n as [|n IH]; [reflexivity|]. rewrite S_INR. unfold nat_r in *. cbn [sum]. rewrite IH. cbn. f_equal. ring. Qed.
Lemma power_eq k : (k < N)%nat -> power (map wval (seq 0 N)) k = (INR N / coef 0 * T (N - 1) (u_ k)) ^ 2.
Proof.
  intros Hk. unfold power. rewrite map_length, seq_length. cbv zeta. pose proof coef_0_pos. pose proof dp_pos. pose proof N1.
  set (c := ofR Rring (1 / (ch_dp ripple * coef 0)) : complexR).
  set (b := fun j => @rmul (Cr Rring) c (@rmul (Cr Rring) (ch_wf2 N ripple j) (sin_cos Rring rtrig N (-1 * Z.of_nat j * Z.of_nat hh)))).
  assert (E : forall n, (n < N)%nat -> (wval n, 0) = DFT Rring rtrig (-1) N b n).
  { intros n Hn. unfold b. rewrite (DFT_lin Rring rtrig (-1) N c). rewrite <- (DFT_shift (ch_wf2 N ripple) n).
    pose proof (fft_eq ((n + hh) mod N)) as F. unfold ch_fft in F. set (D := DFT Rring rtrig (-1) N (ch_wf2 N ripple) ((n + hh) mod N)) in *. clearbody D. unfold wval. set (Q := coef ((n + hh) mod N)) in *. clearbody Q. destruct D as [d1 d2]. cbn in F. injection F as F1 F2.
    assert (D1 : d1 = ch_dp ripple * Q). { apply (Rmult_eq_reg_l (1 / INR N)); [|apply Rgt_not_eq, Rdiv_lt_0_compat; lra]. transitivity (ch_dp ripple / INR N * Q); [rewrite <- F1; ring|field; lra]. }
    assert (D2 : d2 = 0). { apply (Rmult_eq_reg_l (1 / INR N)); [|apply Rgt_not_eq, Rdiv_lt_0_compat; lra]. rewrite Rmult_0_r. rewrite <- F2. ring. }
    rewrite D1, D2. unfold c, ofR. cbn. f_equal; field; split; lra. }
  assert (G : DFT Rring rtrig (-1) N (fun n => (nth n (map wval (seq 0 N)) 0, 0)) k = DFT Rring rtrig (-1) N (fun n => (wval n, 0)) k).
  { unfold DFT. apply (sum_ext (Cr Rring)). intros n Hn. rewrite (nth_indep _ 0 (wval 0)) by (rewrite map_length, seq_length; exact Hn). rewrite map_nth, seq_nth by exact Hn. reflexivity. }
  rewrite G. fold (mag (DFT Rring rtrig (-1) N (fun n => (wval n, 0)) k)). rewrite DFT_conj.
  assert (I : DFT Rring rtrig 1 N (fun n => (wval n, 0)) k = @rmul (Cr Rring) (nat_r Rring N) (b k)).
  { rewrite <- (DFT_inv Rring rtrig N (exact_reals N ltac:(lia)) 1 b k (or_introl eq_refl) Hk). unfold DFT at 1 2. apply (sum_ext (Cr Rring)). intros n Hn. f_equal. exact (E n Hn). }
  rewrite I, mag_mul, nat_r_eq. unfold b. rewrite !mag_mul, mag_sc, wf2_eq by exact Hk. unfold mag, c, ofR. cbn [fst snd].
  pose proof (sin2_cos2 (INR (eps_ N) * phi N k)) as Q. unfold Rsqr in Q.
  set (A := cos (INR (eps_ N) * phi N k)) in *. set (B := sin (INR (eps_ N) * phi N k)) in *. set (t := T (N - 1) (u_ k)).
  transitivity (INR N * INR N * (1 / (ch_dp ripple * coef 0) * (1 / (ch_dp ripple * coef 0)) * (ch_dp ripple * t * (ch_dp ripple * t) * (B * B + A * A)))); [cbn; ring|]. rewrite Q. field. split; lra.
Qed.
End Fn.

Theorem cheby_ok N ripple : (1 < N)%nat -> exists w s, cheby N ripple = Some w /\ length w = N /\
  (forall n, (n < N)%nat -> nth_error w n = nth_error w (N - 1 - n)) /\ (forall n x, nth_error w n = Some x -> 0 <= x) /\ nth_error w (N / 2) = Some 1 /\
  1 < s /\ T (N - 1) s = (1 + Rpower 10 (- ripple / 20)) / Rpower 10 (- ripple / 20) /\
  0 < power w 0 /\ forall k, (k < N)%nat -> power w k * (T (N - 1) s) ^ 2 = power w 0 * (T (N - 1) (s * cos (PI * INR k / INR N))) ^ 2.
Proof.
  intros H. exists (map (wval N ripple) (seq 0 N)), (ch_s N ripple). split; [apply cheby_eq; exact H|]. split; [rewrite map_length, seq_length; reflexivity|].
  split; [|split; [|split; [|split; [|split]]]].
  - intros n Hn. rewrite !nth_error_map_seq. cbn [Nat.add]. destruct (Nat.ltb_spec n N), (Nat.ltb_spec (N - 1 - n) N); try lia. f_equal. apply wval_sym; assumption.
  - intros n x E. rewrite nth_error_map_seq in E. destruct (Nat.ltb_spec n N); [|discriminate]. injection E as <-. apply wval_nonneg; assumption.
  - rewrite nth_error_map_seq. cbn [Nat.add]. assert (N / 2 < N)%nat by (apply Nat.div_lt; lia). destruct (Nat.ltb_spec (N / 2) N); [|lia]. f_equal. apply wval_mid; assumption.
  - apply s_gt1; assumption.
  - apply T_at_s; assumption.
  - assert (P : forall k, (k < N)%nat -> power (map (wval N ripple) (seq 0 N)) k = (INR N / coef N ripple 0 * T (N - 1) (u_ N ripple k)) ^ 2) by (intros; apply power_eq; assumption).
    assert (U0 : u_ N ripple 0 = ch_s N ripple) by (unfold u_, phi; cbn [INR]; replace (PI * 0 / INR N) with 0 by (unfold Rdiv; ring); rewrite cos_0; ring).
    pose proof (coef_0_pos N ripple H) as C0. pose proof (ratio_gt1 ripple) as R1. pose proof (N1 N H).
    split.
    + rewrite P by lia. rewrite U0, (T_at_s N ripple H). apply pow_lt. apply Rmult_lt_0_compat; [apply Rdiv_lt_0_compat; lra|lra].
    + intros k Hk. rewrite !P by lia. rewrite U0. change (ch_s N ripple * cos (PI * INR k / INR N)) with (u_ N ripple k). ring.
Qed.
Lemma T_small n x : Rabs x <= 1 -> Rabs (T n x) <= 1.
Proof.
  intros H. apply Rabs_le_between in H || idtac. assert (B : -1 <= x <= 1) by (unfold Rabs in H; destruct (Rcase_abs x); lra).
  rewrite <- (cos_acos x B), T_cos. apply Rabs_le. apply COS_bound.
Qed.
Lemma cosh_incr a b : 0 <= a -> a <= b -> cosh a <= cosh b.
Proof.
  intros A B. unfold cosh. pose proof (exp_inv a). pose proof (exp_inv b). pose proof (exp_pos a). pose proof (exp_pos b).
  assert (1 <= exp a) by (rewrite <- exp_0; destruct A as [A|<-]; [left; apply exp_increasing; exact A|right; reflexivity]).
  assert (exp a <= exp b) by (destruct B as [B|<-]; [left; apply exp_increasing; exact B|right; reflexivity]).
  pose proof (exp_pos (- a)). pose proof (exp_pos (- b)). assert (E : exp (- a) - exp (- b) = (exp b - exp a) * (exp (- a) * exp (- b))) by (transitivity (exp (- a) * (exp b * exp (- b)) - exp (- b) * (exp a * exp (- a))); [rewrite H, H0; ring|ring]).
  assert (exp (- a) <= 1) by nra. assert (exp (- b) <= 1) by nra. assert (exp (- a) * exp (- b) <= 1) by nra. nra.
Qed.
Lemma T_abs n x : Rabs (T n (Rabs x)) = Rabs (T n x).
Proof. unfold Rabs at 2. destruct (Rcase_abs x); [|reflexivity]. rewrite T_opp, Rabs_mult. destruct (Nat.even n); [rewrite Rabs_R1|rewrite Rabs_left by lra]; ring. Qed.
Lemma T_le n x s : 1 < s -> Rabs x <= s -> Rabs (T n x) <= T n s.
Proof.
  intros S X. assert (G : 1 <= T n s) by (rewrite <- (cosh_acosh s) by lra; rewrite T_cosh; apply cosh_ge1).
  destruct (Rle_dec (Rabs x) 1) as [L|L]; [pose proof (T_small n x L); lra|]. rewrite <- T_abs.
  assert (U : 1 <= Rabs x) by lra. pose proof (acosh_nonneg _ U) as P. pose proof (acosh_nonneg s ltac:(lra)) as Q.
  rewrite <- (cosh_acosh (Rabs x) U), <- (cosh_acosh s) by lra. rewrite !T_cosh. rewrite Rabs_pos_eq by (pose proof (cosh_ge1 (INR n * acosh_elem (Rabs x))); lra).
  destruct (Rle_dec (acosh_elem (Rabs x)) (acosh_elem s)) as [D|D].
  - pose proof (pos_INR n). apply cosh_incr; nra.
  - assert (E : Rabs x = s). { apply Rle_antisym; [exact X|]. rewrite <- (cosh_acosh (Rabs x) U), <- (cosh_acosh s) by lra. apply cosh_incr; lra. }
    rewrite E. right. reflexivity.
Qed.
Lemma sq_le a b : Rabs a <= b -> a ^ 2 <= b ^ 2.
Proof. intros H. rewrite <- (pow2_abs a). pose proof (Rabs_pos a). apply pow_incr. lra. Qed.
Theorem cheby_bins N ripple : (1 < N)%nat -> exists w s, cheby N ripple = Some w /\ 1 < s /\ T (N - 1) s = (1 + Rpower 10 (- ripple / 20)) / Rpower 10 (- ripple / 20) /\ 0 < power w 0 /\
  (forall k, (k < N)%nat -> power w k <= power w 0) /\
  forall k, (k < N)%nat -> s * Rabs (cos (PI * INR k / INR N)) <= 1 -> power w k <= Rpower 10 (- ripple / 10) * power w 0.
Proof.
  intros H. destruct (cheby_ok N ripple H) as (w & s & E & _ & _ & _ & _ & S & TS & P0 & F). exists w, s. split; [exact E|]. split; [exact S|]. split; [exact TS|]. split; [exact P0|].
  assert (D : 0 < Rpower 10 (- ripple / 20)) by apply exp_pos. set (d := Rpower 10 (- ripple / 20)) in *.
  assert (G : 1 / d < T (N - 1) s). { rewrite TS. apply (Rmult_lt_reg_r d); [exact D|]. unfold Rdiv. rewrite !Rmult_assoc, Rinv_l by lra. lra. }
  assert (D1 : 0 < 1 / d) by (apply Rdiv_lt_0_compat; lra).
  split; intros k Hk.
  - specialize (F k Hk). assert (X : Rabs (s * cos (PI * INR k / INR N)) <= s). { rewrite Rabs_mult, (Rabs_pos_eq s) by lra. assert (Rabs (cos (PI * INR k / INR N)) <= 1) by (apply Rabs_le, COS_bound). nra. }
    pose proof (sq_le _ _ (T_le (N - 1) _ s S X)) as Q. assert (0 < (T (N - 1) s) ^ 2) by (apply pow_lt; lra).
    apply (Rmult_le_reg_r ((T (N - 1) s) ^ 2)); [assumption|]. rewrite F. apply Rmult_le_compat_l; [lra|exact Q].
  - intros Z. specialize (F k Hk). assert (X : Rabs (s * cos (PI * INR k / INR N)) <= 1) by (rewrite Rabs_mult, (Rabs_pos_eq s) by lra; exact Z).
    pose proof (sq_le _ _ (T_small (N - 1) _ X)) as Q. replace (1 ^ 2) with 1 in Q by ring.
    assert (V : Rpower 10 (- ripple / 10) = d ^ 2). { unfold d. replace (- ripple / 10) with (- ripple / 20 + - ripple / 20) by field. rewrite Rpower_plus. ring. }
    assert (W : 1 <= (d * T (N - 1) s) ^ 2). { replace 1 with (1 ^ 2) by ring. apply pow_incr. split; [lra|]. apply Rlt_le. apply (Rmult_lt_reg_l (1 / d)); [exact D1|]. replace (1 / d * (d * T (N - 1) s)) with (T (N - 1) s) by (field; lra). lra. }
    assert (PK : 0 <= power w k) by (unfold power; cbv zeta; match goal with |- 0 <= ?a * ?a + ?b * ?b => change (0 <= Rsqr a + Rsqr b); apply Rplus_le_le_0_compat; apply Rle_0_sqr end).
    rewrite V. apply Rle_trans with (power w k * (d * T (N - 1) s) ^ 2).
    + rewrite <- (Rmult_1_r (power w k)) at 1. apply Rmult_le_compat_l; assumption.
    + replace (power w k * (d * T (N - 1) s) ^ 2) with (d ^ 2 * (power w k * T (N - 1) s ^ 2)) by ring. rewrite F. assert (0 < d ^ 2) by (apply pow_lt; exact D).
      apply Rmult_le_compat_l; [lra|]. rewrite <- (Rmult_1_r (power w 0)) at 2. apply Rmult_le_compat_l; lra.
Qed.
