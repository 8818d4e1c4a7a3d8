From Coq Require Import ZArith Reals Lra Lia List Bool Arith.
From Verif Require Import Base Window.
Import ListNotations.
Local Open Scope R_scope.

(** ** The series *)
Definition term (y : R) (k : nat) : R := y ^ k / (INR (fact k)) ^ 2.
Lemma fact_pos k : 0 < INR (fact k).
Proof. apply lt_0_INR, lt_O_fact. Qed.
Lemma fact_ge1 k : 1 <= INR (fact k).
Proof. change 1 with (INR 1). apply le_INR. pose proof (lt_O_fact k). lia. Qed.
Lemma term_pos y k : 0 <= y -> 0 <= term y k.
Proof. intros H. unfold term. apply Rmult_le_pos; [apply pow_le, H|]. apply Rlt_le, Rinv_0_lt_compat, pow_lt, fact_pos. Qed.
Lemma term_S y k : term y (S k) = term y k * (y / (INR (S k)) ^ 2).
Proof.
  unfold term. rewrite fact_simpl, mult_INR. cbn [pow]. field. pose proof (fact_pos k). split; [apply not_0_INR; lia|lra].
Qed.
Lemma term_mono y y' k : 0 <= y <= y' -> term y k <= term y' k.
Proof.
  intros H. unfold term. apply Rmult_le_compat_r; [apply Rlt_le, Rinv_0_lt_compat, pow_lt, fact_pos|]. apply pow_incr, H.
Qed.
Fixpoint S_ (y : R) (n : nat) : R := match n with O => 1 | S n => S_ y n + term y (S n) end.
Lemma S_sum y n : sum_f_R0 (term y) n = S_ y n.
Proof. induction n as [|n IH]; cbn [sum_f_R0 S_]; [unfold term; cbn; field|]. rewrite IH. reflexivity. Qed.
Lemma S_mono y y' n : 0 <= y <= y' -> S_ y n <= S_ y' n.
Proof. intros H. induction n as [|n IH]; cbn [S_]; [lra|]. pose proof (term_mono y y' (S n) H). lra. Qed.
Lemma S_grow y n m : 0 <= y -> (n <= m)%nat -> S_ y n <= S_ y m.
Proof. intros H L. induction L as [|m L IH]; [lra|]. cbn [S_]. pose proof (term_pos y (S m) H). lra. Qed.
(** Past an index whose square is twice [y] the terms halve. *)
Lemma half y n k : 0 <= y -> 2 * y <= (INR (S n)) ^ 2 -> (n <= k)%nat -> term y (S k) <= term y k / 2.
Proof.
  intros Hy H L. rewrite term_S. unfold Rdiv at 2. apply Rmult_le_compat_l; [apply term_pos, Hy|].
  assert (0 < INR (S k)) by (apply lt_0_INR; lia). assert (INR (S n) <= INR (S k)) by (apply le_INR; lia). assert (0 < INR (S n)) by (apply lt_0_INR; lia).
  assert ((INR (S n)) ^ 2 <= (INR (S k)) ^ 2) by (apply pow_incr; lra).
  apply (Rmult_le_reg_r ((INR (S k)) ^ 2)); [apply pow_lt; assumption|]. unfold Rdiv. rewrite Rmult_assoc, Rinv_l by (apply pow_nonzero; lra). lra.
Qed.
Lemma tail y n m : 0 <= y -> 2 * y <= (INR (S n)) ^ 2 -> S_ y (n + m) + term y (n + m) <= S_ y n + term y n.
Proof.
  intros Hy H. induction m as [|m IH]; [rewrite Nat.add_0_r; lra|]. rewrite Nat.add_succ_r. cbn [S_].
  pose proof (half y n (n + m) Hy H ltac:(lia)). pose proof (term_pos y (n + m) Hy). lra.
Qed.
Lemma big y : exists n, 2 * y <= (INR (S n)) ^ 2.
Proof.
  assert (U : exists n, 2 * y <= INR n).
  { exists (Z.to_nat (up (Rabs (2 * y)))). rewrite INR_IZR_INZ. destruct (archimed (Rabs (2 * y))) as [A _]. pose proof (Rabs_pos (2 * y)). pose proof (Rle_abs (2 * y)).
    rewrite Z2Nat.id; [lra|]. apply le_IZR. lra. }
  destruct U as [n Hn]. exists n. rewrite S_INR. pose proof (pos_INR n). cbn [pow]. nra.
Qed.
Lemma lim_le f l b : (forall n, f n <= b) -> Un_cv f l -> l <= b.
Proof.
  intros H C. destruct (Rle_lt_dec l b) as [|G]; [assumption|exfalso]. destruct (C (l - b) ltac:(lra)) as [N HN]. specialize (HN N (le_n N)). unfold R_dist in HN. pose proof (H N).
  apply Rabs_def2 in HN. lra.
Qed.
Lemma I0_exists x : exists l, is_I0 x l.
Proof.
  set (y := x * x / 4). assert (Hy : 0 <= y) by (unfold y; nra). destruct (big y) as [n Hn].
  destruct (growing_cv (S_ y)) as [l Hl].
  - intros k. apply S_grow; [exact Hy|lia].
  - exists (S_ y n + term y n). intros z [k ->]. destruct (le_lt_dec k n) as [L|L].
    + pose proof (S_grow y k n Hy L). pose proof (term_pos y n Hy). lra.
    + pose proof (tail y n (k - n) Hy Hn) as T. replace (n + (k - n))%nat with k in T by lia. pose proof (term_pos y k Hy). lra.
  - exists l. unfold is_I0, infinite_sum. intros e He. destruct (Hl e He) as [N HN]. exists N. intros k Hk. specialize (HN k Hk). fold y. fold (term y).
    change (fun k0 => y ^ k0 / INR (fact k0) ^ 2) with (term y). rewrite S_sum. exact HN.
Qed.
Lemma I0_cv x l : is_I0 x l -> Un_cv (S_ (x * x / 4)) l.
Proof.
  intros H e He. destruct (H e He) as [N HN]. exists N. intros k Hk. specialize (HN k Hk). rewrite <- S_sum. exact HN.
Qed.
Lemma I0_unique x l l' : is_I0 x l -> is_I0 x l' -> l = l'.
Proof. intros A B. apply I0_cv in A. apply I0_cv in B. exact (UL_sequence _ _ _ A B). Qed.
Lemma I0_bounds x l n : is_I0 x l -> S_ (x * x / 4) n <= l /\ (2 * (x * x / 4) <= (INR (S n)) ^ 2 -> l <= S_ (x * x / 4) n + term (x * x / 4) n).
Proof.
  intros H. apply I0_cv in H. assert (Hy : 0 <= x * x / 4) by nra. split.
  - apply (growing_ineq (S_ (x * x / 4)) l); [|exact H]. intros k. apply S_grow; [exact Hy|lia].
  - intros Hn. apply (lim_le (S_ (x * x / 4)) l); [|exact H]. intros k. destruct (le_lt_dec k n) as [L|L].
    + pose proof (S_grow _ k n Hy L). pose proof (term_pos _ n Hy). lra.
    + pose proof (tail _ n (k - n) Hy Hn) as T. replace (n + (k - n))%nat with k in T by lia. pose proof (term_pos _ k Hy). lra.
Qed.
Lemma I0_mono x x' l l' : is_I0 x l -> is_I0 x' l' -> x * x <= x' * x' -> l <= l'.
Proof.
  intros H H' L. apply (lim_le (S_ (x * x / 4)) l); [|exact (I0_cv _ _ H)]. intros n.
  apply Rle_trans with (S_ (x' * x' / 4) n); [apply S_mono; nra|]. exact (proj1 (I0_bounds x' l' n H')).
Qed.
Lemma I0_ge1 x l : is_I0 x l -> 1 <= l.
Proof. intros H. exact (proj1 (I0_bounds x l 0 H)). Qed.

(** ** The polynomial *)
Lemma poly_mono t t' : 0 <= t <= t' -> bessel_poly t <= bessel_poly t'.
Proof.
  intros H. unfold bessel_poly. cbv zeta. apply Rplus_le_compat_l.
  repeat (apply Rmult_le_compat; [lra| |lra|]; [repeat (apply Rplus_le_le_0_compat; [lra|]; try (apply Rmult_le_pos; [lra|])); lra|]; apply Rplus_le_compat_l). nra.
Qed.
Lemma poly_ge1 t : 0 <= t -> 1 <= bessel_poly t.
Proof.
  intros H. apply Rle_trans with (bessel_poly 0); [unfold bessel_poly; lra|]. apply poly_mono. lra.
Qed.
Lemma S8 y : S_ y 8 = 1 + y + y ^ 2 / 4 + y ^ 3 / 36 + y ^ 4 / 576 + y ^ 5 / 14400 + y ^ 6 / 518400 + y ^ 7 / 25401600 + y ^ 8 / 1625702400.
Proof.
  cbn [S_]. rewrite !term_S. replace (term y 0) with 1 by (unfold term; cbn; field). cbn [INR]. field.
Qed.
Lemma t8 y : term y 8 = y ^ 8 / 1625702400.
Proof. rewrite !term_S. replace (term y 0) with 1 by (unfold term; cbn; field). cbn [INR]. field. Qed.
Lemma pow01 t k : 0 <= t <= 1 -> 0 <= t ^ k <= 1.
Proof. intros H. split; [apply pow_le; lra|]. rewrite <- (pow1 k). apply pow_incr. exact H. Qed.
Lemma poly_error x l : Rabs x <= 3 -> is_I0 x l -> 0 <= l - bessel_poly (x / 3 * (x / 3)) <= 2 / 10000.
Proof.
  intros Hx H. set (t := x / 3 * (x / 3)). assert (Ey : x * x / 4 = 9 / 4 * t) by (unfold t; field).
  assert (Ht : 0 <= t <= 1). { unfold t. apply Rabs_def2b in Hx || idtac. assert (- 3 <= x <= 3) by (revert Hx; unfold Rabs; destruct (Rcase_abs x); lra). nra. }
  destruct (I0_bounds x l 8 H) as [B1 B2]. rewrite Ey in B1, B2. specialize (B2 ltac:(cbn [INR]; nra)). rewrite S8 in B1, B2. rewrite t8 in B2.
  pose proof (pow01 t 2 Ht). pose proof (pow01 t 3 Ht). pose proof (pow01 t 4 Ht). pose proof (pow01 t 5 Ht). pose proof (pow01 t 6 Ht). pose proof (pow01 t 7 Ht). pose proof (pow01 t 8 Ht).
  assert (E : bessel_poly t = 1 + 22499997 / 10000000 * t + 12656208 / 10000000 * t ^ 2 + 3163866 / 10000000 * t ^ 3 + 444479 / 10000000 * t ^ 4 + 39444 / 10000000 * t ^ 5 + 2100 / 10000000 * t ^ 6) by (unfold bessel_poly; cbv zeta; ring).
  rewrite E. rewrite !Rpow_mult_distr in B1, B2. set (t2 := t ^ 2) in *. set (t3 := t ^ 3) in *. set (t4 := t ^ 4) in *. set (t5 := t ^ 5) in *. set (t6 := t ^ 6) in *. set (t7 := t ^ 7) in *. set (t8 := t ^ 8) in *.
  clearbody t t2 t3 t4 t5 t6 t7 t8. clear - B1 B2 Ht H0 H1 H2 H3 H4 H5 H6. lra.
Qed.
Lemma poly_gap l : is_I0 3 l -> 18 / 100000 <= l - bessel_poly 1.
Proof.
  intros H. pose proof (proj1 (I0_bounds 3 l 8 H)) as B. rewrite S8 in B. unfold bessel_poly. cbv zeta. lra.
Qed.

(** ** The loop *)
Lemma fact_amgm n : 2 ^ n * INR (fact n) <= (INR (S n)) ^ n.
Proof.
  induction n as [|n IH]; [cbn; lra|]. rewrite fact_simpl, mult_INR. change (2 ^ S n) with (2 * 2 ^ n).
  assert (P : 0 < INR (S n)) by (apply lt_0_INR; lia).
  apply Rle_trans with (2 * (INR (S n)) ^ S n).
  - change ((INR (S n)) ^ S n) with (INR (S n) * (INR (S n)) ^ n). nra.
  - replace (INR (S (S n))) with (INR (S n) * (1 + / INR (S n))) by (rewrite (S_INR (S n)); field; lra).
    rewrite Rpow_mult_distr. rewrite (Rmult_comm 2). apply Rmult_le_compat_l; [apply pow_le; lra|].
    pose proof (poly (S n) (/ INR (S n)) (Rinv_0_lt_compat _ P)) as Q. rewrite Rinv_r in Q by lra. lra.
Qed.
(** A term below one is past the point where the terms begin to halve. *)
Lemma small_term y n : 0 <= y -> term y n < 1 -> 2 * y <= (INR (S n)) ^ 2.
Proof.
  intros Hy H. destruct (Rle_lt_dec (2 * y) ((INR (S n)) ^ 2)) as [|G]; [assumption|exfalso].
  assert (P : 0 < INR (S n)) by (apply lt_0_INR; lia). pose proof (fact_pos n) as F. pose proof (fact_amgm n) as A.
  assert (T2 : 1 <= 2 ^ n) by (rewrite <- (pow1 n); apply pow_incr; lra).
  assert (Q : 2 ^ n * term y n * INR (fact n) ^ 2 = (2 * y) ^ n) by (unfold term; rewrite Rpow_mult_distr; field; lra).
  assert (Q2 : ((INR (S n)) ^ 2) ^ n <= (2 * y) ^ n) by (apply pow_incr; split; [apply pow_le; lra|lra]).
  assert (Q3 : (2 ^ n * INR (fact n)) ^ 2 <= ((INR (S n)) ^ n) ^ 2) by (apply pow_incr; split; [nra|exact A]).
  rewrite <- !pow_mult in *. rewrite (Nat.mul_comm n 2) in Q3. rewrite Rpow_mult_distr in Q3.
  assert (F2 : 0 < INR (fact n) ^ 2) by (apply pow_lt, F).
  assert (2 ^ n * INR (fact n) ^ 2 <= (2 ^ n) ^ 2 * INR (fact n) ^ 2) by (apply Rmult_le_compat_r; [lra|]; cbn [pow]; nra).
  assert (2 ^ n * term y n * INR (fact n) ^ 2 < 2 ^ n * 1 * INR (fact n) ^ 2). { apply Rmult_lt_compat_r; [exact F2|]. apply Rmult_lt_compat_l; lra. }
  lra.
Qed.
Lemma eps_reached y e : 0 <= y -> 0 < e -> exists n, term y n <= e.
Proof.
  intros Hy He. destruct (big y) as [n Hn].
  assert (D : forall m, term y (n + m) <= term y n * (1 / 2) ^ m).
  { induction m as [|m IH]; [rewrite Nat.add_0_r; cbn; lra|]. rewrite Nat.add_succ_r. pose proof (half y n (n + m) Hy Hn ltac:(lia)). cbn [pow]. lra. }
  pose proof (term_pos y n Hy) as T.
  destruct (pow_lt_1_zero (1 / 2) ltac:(rewrite Rabs_pos_eq; lra) (e / (term y n + 1))) as [N HN]; [apply Rdiv_lt_0_compat; lra|].
  exists (n + N)%nat. specialize (HN N (le_n N)). rewrite Rabs_pos_eq in HN by (apply pow_le; lra).
  apply Rle_trans with (1 := D N). apply Rle_trans with (term y n * (e / (term y n + 1))); [apply Rmult_le_compat_l; lra|].
  apply (Rmult_le_reg_r (term y n + 1)); [lra|]. replace (term y n * (e / (term y n + 1)) * (term y n + 1)) with (term y n * e) by (field; lra). nra.
Qed.
Lemma least (P : nat -> Prop) : (forall n, {P n} + {~ P n}) -> (exists n, P n) -> exists n, P n /\ forall k, (k < n)%nat -> ~ P k.
Proof.
  intros D [n Hn]. revert P D Hn. induction n as [|n IH]; intros P D Hn.
  - exists 0%nat. split; [exact Hn|]. intros; lia.
  - destruct (D 0%nat) as [H0|H0]; [exists 0%nat; split; [exact H0|intros; lia]|].
    destruct (IH (fun k => P (S k)) (fun k => D (S k)) Hn) as (m & Hm & Lm). exists (S m). split; [exact Hm|]. intros [|k] Hk; [exact H0|]. apply Lm. lia.
Qed.
Definition eps := 1 / 100000000.
Lemma stop y : 0 <= y -> exists N, (2 <= N)%nat /\ term y N <= eps /\ forall j, (2 <= j < N)%nat -> eps < term y j.
Proof.
  intros Hy. destruct (eps_reached y (eps) Hy ltac:(unfold eps; lra)) as [n Hn].
  destruct (least (fun n => term y (2 + n) <= eps)) as (N & HN & LN).
  - intros k. apply Rle_dec.
  - assert (S2 : 2 * y <= (INR (S n)) ^ 2) by (apply small_term; [exact Hy|unfold eps in Hn; lra]).
    exists n. apply Rle_trans with (2 := Hn). pose proof (half y n n Hy S2 (le_n n)). pose proof (half y n (S n) Hy S2 ltac:(lia)). pose proof (term_pos y n Hy). pose proof (term_pos y (S n) Hy). cbn [Nat.add]. lra.
  - exists (2 + N)%nat. split; [lia|]. split; [exact HN|]. intros j Hj. specialize (LN (j - 2)%nat ltac:(lia)). replace (2 + (j - 2))%nat with j in LN by lia. lra.
Qed.
Lemma run y N : forall k n fuel d n0 x1 ans, (n + k)%nat = N -> (forall j, (n < j < N)%nat -> eps < term y j) -> ((0 < k)%nat -> eps < d) -> (k = O -> d <= eps) -> ((0 < k)%nat -> term y N <= eps) -> (k <= fuel)%nat ->
  n0 = INR (fact n) -> x1 = y ^ n -> ans = S_ y n -> bessel_loop fuel y n n0 x1 d ans = Some (S_ y N).
Proof.
  induction k as [|k IH]; intros n fuel d n0 x1 ans E G D1 D0 DN L -> -> ->.
  - rewrite Nat.add_0_r in E. subst n. specialize (D0 eq_refl). destruct fuel; cbn [bessel_loop]; destruct (Rlt_dec (1 / 100000000) d); try reflexivity; unfold eps in D0; lra.
  - destruct fuel as [|fuel]; [lia|]. cbn [bessel_loop]. specialize (D1 ltac:(lia)). destruct (Rlt_dec (1 / 100000000) d) as [_|B]; [|unfold eps in D1; lra].
    assert (Q : y ^ n * y / (INR (fact n) * INR (n + 1) * (INR (fact n) * INR (n + 1))) = term y (S n)).
    { unfold term. replace (n + 1)%nat with (S n) by lia. rewrite fact_simpl, mult_INR. cbn [pow]. field. pose proof (fact_pos n). split; [lra|]. apply not_0_INR. lia. }
    rewrite Q. replace (n + 1)%nat with (S n) by lia. apply (IH (S n)).
    + lia.
    + intros j Hj. apply G. lia.
    + intros Hk. apply G. lia.
    + intros ->. replace (S n) with N by lia. apply DN. lia.
    + intros Hk. apply DN. lia.
    + lia.
    + rewrite fact_simpl, mult_INR. ring.
    + cbn [pow]. ring.
    + reflexivity.
Qed.
(** The value of the function, whatever the number of steps once large enough. *)
Definition bessel_is (x v : R) : Prop := exists f0, forall f, (f0 <= f)%nat -> bessel_I_0 f x = Some v.
Lemma bessel_is_unique x v v' : bessel_is x v -> bessel_is x v' -> v = v'.
Proof. intros [f H] [f' H']. specialize (H (f + f')%nat ltac:(lia)). specialize (H' (f + f')%nat ltac:(lia)). congruence. Qed.
Lemma bessel_small x : Rabs x <= 3 -> bessel_is x (bessel_poly (x / 3 * (x / 3))).
Proof. intros H. exists O. intros f _. unfold bessel_I_0. destruct (Rle_dec (Rabs x) 3); [reflexivity|contradiction]. Qed.
Lemma bessel_large x : 3 < Rabs x -> exists N, (2 <= N)%nat /\ term (x * x / 4) N <= eps /\ (forall j, (2 <= j < N)%nat -> eps < term (x * x / 4) j) /\ bessel_is x (S_ (x * x / 4) N).
Proof.
  intros H. destruct (stop (x * x / 4) ltac:(nra)) as (N & L & T & G). exists N. repeat split; try assumption. exists N. intros f Hf. unfold bessel_I_0.
  destruct (Rle_dec (Rabs x) 3); [lra|]. replace (x * x * (1 / 4)) with (x * x / 4) by field.
  apply (run _ N (N - 1)); try lia.
  - intros j Hj. apply G. lia.
  - intros _. unfold eps. lra.
  - intros _. exact T.
  - reflexivity.
  - cbn [pow]. ring.
  - cbn [S_]. unfold term. cbn. field.
Qed.
Lemma bessel_total x : exists v, bessel_is x v.
Proof. destruct (Rle_lt_dec (Rabs x) 3) as [H|H]; [eexists; exact (bessel_small x H)|]. destruct (bessel_large x H) as (N & _ & _ & _ & B). eauto. Qed.
Lemma bessel_error x v l : bessel_is x v -> is_I0 x l -> 0 <= l - v <= (if Rle_dec (Rabs x) 3 then 2 / 10000 else eps).
Proof.
  intros B H. destruct (Rle_dec (Rabs x) 3) as [A|A].
  - rewrite (bessel_is_unique _ _ _ B (bessel_small x A)). exact (poly_error x l A H).
  - destruct (bessel_large x ltac:(lra)) as (N & L & T & G & B'). rewrite (bessel_is_unique _ _ _ B B').
    destruct (I0_bounds x l N H) as [B1 B2]. specialize (B2 (small_term (x * x / 4) N ltac:(nra) ltac:(unfold eps in T; lra))). lra.
Qed.
Lemma bessel_mono x x' v v' : Rabs x <= Rabs x' -> bessel_is x v -> bessel_is x' v' -> v <= v'.
Proof.
  intros L B B'. assert (Q : x * x <= x' * x'). { pose proof (Rsqr_le_abs_1 x x' L) as R1. unfold Rsqr in R1. exact R1. }
  destruct (Rle_lt_dec (Rabs x') 3) as [A'|A'].
  - rewrite (bessel_is_unique _ _ _ B (bessel_small x ltac:(lra))), (bessel_is_unique _ _ _ B' (bessel_small x' A')). apply poly_mono. nra.
  - destruct (bessel_large x' A') as (N' & L' & T' & G' & C'). rewrite (bessel_is_unique _ _ _ B' C').
    destruct (Rle_lt_dec (Rabs x) 3) as [A|A].
    + rewrite (bessel_is_unique _ _ _ B (bessel_small x A)). destruct (I0_exists 3) as [l Hl]. destruct (I0_exists x') as [l' Hl'].
      pose proof (poly_gap l Hl). pose proof (bessel_error x' _ l' C' Hl') as E. destruct (Rle_dec (Rabs x') 3); [lra|].
      assert (9 <= x' * x'). { assert (R1 : Rsqr 3 <= Rsqr x'). { apply Rsqr_le_abs_1. rewrite (Rabs_pos_eq 3) by lra. lra. } unfold Rsqr in R1. lra. }
      assert (x * x <= 9). { assert (R1 : Rsqr x <= Rsqr 3). { apply Rsqr_le_abs_1. rewrite (Rabs_pos_eq 3) by lra. lra. } unfold Rsqr in R1. lra. }
      pose proof (I0_mono 3 x' l l' Hl Hl' ltac:(lra)). pose proof (poly_mono (x / 3 * (x / 3)) 1 ltac:(nra)). unfold eps in E. lra.
    + destruct (bessel_large x A) as (N & LN & T & G & C). rewrite (bessel_is_unique _ _ _ B C).
      assert (NN : (N <= N')%nat). { destruct (le_lt_dec N N') as [|X]; [assumption|]. specialize (G N' ltac:(lia)). pose proof (term_mono (x * x / 4) (x' * x' / 4) N' ltac:(nra)). lra. }
      pose proof (S_mono (x * x / 4) (x' * x' / 4) N ltac:(nra)). pose proof (S_grow (x' * x' / 4) N N' ltac:(nra) NN). lra.
Qed.
Lemma bessel_ge1 x v : bessel_is x v -> 1 <= v.
Proof.
  intros B. destruct (Rle_lt_dec (Rabs x) 3) as [A|A].
  - rewrite (bessel_is_unique _ _ _ B (bessel_small x A)). apply poly_ge1. nra.
  - destruct (bessel_large x A) as (N & _ & _ & _ & C). rewrite (bessel_is_unique _ _ _ B C). apply (S_grow (x * x / 4) 0 N); [nra|lia].
Qed.

(** ** Filling a vector *)
Lemma fill_ok (g : nat -> R) len fill : loop (fun n v => bput v n (g n)) 0 len (fresh fill len) = Some (map g (seq 0 len)).
Proof.
  destruct (loop_inv (fun n v => bput v n (g n)) (fun i (v : list R) => length v = len /\ forall j, (j < i)%nat -> nth_error v j = Some (g j)) len 0 (fresh fill len)) as (w & E & L & W).
  - split; [apply repeat_length|]. intros; lia.
  - intros j t Hj (Lt & Ht). exists (lset t j (g j)). split; [apply bput_some; lia|]. split; [rewrite lset_length; exact Lt|].
    intros i Hi. rewrite lset_nth. destruct (Nat.eqb_spec i j) as [->|N]; [|apply Ht; lia]. destruct (Nat.ltb_spec j (length t)); [reflexivity|lia].
  - rewrite E. f_equal. apply nth_error_ext. intros i. rewrite nth_error_map_seq. cbn [Nat.add]. destruct (Nat.ltb_spec i len); [apply W; lia|]. apply nth_error_None. lia.
Qed.
Lemma window_map len (g : nat -> R) : (forall n, (n < len)%nat -> 0 <= g n <= 1) -> (forall n, (n < len)%nat -> g n = g (len - 1 - n)%nat) -> window len (map g (seq 0 len)).
Proof.
  intros B Sy. split; [rewrite map_length, seq_length; reflexivity|]. split.
  - intros n x H. rewrite nth_error_map_seq in H. cbn [Nat.add] in H. destruct (Nat.ltb_spec n len); [|discriminate]. injection H as <-. auto.
  - intros n Hn. rewrite !nth_error_map_seq. cbn [Nat.add]. destruct (Nat.ltb_spec n len), (Nat.ltb_spec (len - 1 - n) len); try lia. f_equal. auto.
Qed.
Lemma nth_map len (g : nat -> R) n : (n < len)%nat -> nth_error (map g (seq 0 len)) n = Some (g n).
Proof. intros H. rewrite nth_error_map_seq. destruct (Nat.ltb_spec n len); [reflexivity|lia]. Qed.

(** ** Blackman *)
Definition bman (len n : nat) : R := 42 / 100 - 1 / 2 * cos (2 * PI * INR n / INR (len - 1)) + 8 / 100 * cos (4 * PI * INR n / INR (len - 1)).
Lemma len_pos len : (1 < len)%nat -> 0 < INR (len - 1).
Proof. intros H. apply lt_0_INR. lia. Qed.
Lemma bman_alt len n : bman len n = let c := cos (2 * PI * INR n / INR (len - 1)) in 34 / 100 - 1 / 2 * c + 16 / 100 * (c * c).
Proof.
  unfold bman. cbv zeta. replace (4 * PI * INR n / INR (len - 1)) with (2 * (2 * PI * INR n / INR (len - 1))) by (unfold Rdiv; ring).
  rewrite cos_2a_cos. lra.
Qed.
Lemma cos_flip a : cos (2 * PI - a) = cos a.
Proof. rewrite cos_minus, cos_2PI, sin_2PI. ring. Qed.
Lemma bman_sym len n : (1 < len)%nat -> (n < len)%nat -> bman len n = bman len (len - 1 - n).
Proof.
  intros L H. rewrite !bman_alt. cbv zeta. pose proof (len_pos len L). rewrite (minus_INR (len - 1) n) by lia.
  replace (2 * PI * (INR (len - 1) - INR n) / INR (len - 1)) with (2 * PI - 2 * PI * INR n / INR (len - 1)) by (field; lra).
  rewrite cos_flip. reflexivity.
Qed.
Lemma bman_range len n : 0 <= bman len n <= 1.
Proof. rewrite bman_alt. cbv zeta. pose proof (COS_bound (2 * PI * INR n / INR (len - 1))). set (c := cos _) in *. clearbody c. nra. Qed.
Lemma blackman_eq fill len : (1 < len)%nat -> blackman fill len = Some (map (bman len) (seq 0 len)).
Proof.
  intros L. unfold blackman. destruct (Nat.ltb_spec 1 len); [|lia]. cbv zeta. rewrite <- (fill_ok (bman len) len fill). apply loop_ext. intros j t _. f_equal. unfold bman.
  pose proof (len_pos len L). f_equal; [f_equal; f_equal; f_equal; field; lra|]. f_equal. f_equal. field. lra.
Qed.
Theorem blackman_ok fill len : (1 < len)%nat -> exists w, blackman fill len = Some w /\ window len w /\ nth_error w 0 = Some 0 /\
  forall n, (n < len)%nat -> nth_error w n = Some (42 / 100 - 1 / 2 * cos (2 * PI * INR n / INR (len - 1)) + 8 / 100 * cos (4 * PI * INR n / INR (len - 1))).
Proof.
  intros L. eexists. split; [apply blackman_eq; exact L|]. split; [|split].
  - apply window_map; [intros; apply bman_range|intros; apply bman_sym; assumption].
  - rewrite nth_map by lia. f_equal. rewrite bman_alt. cbv zeta. replace (2 * PI * INR 0 / INR (len - 1)) with 0 by (cbn [INR]; unfold Rdiv; ring). rewrite cos_0. lra.
  - intros n Hn. rewrite nth_map by exact Hn. reflexivity.
Qed.

(** ** Hanning *)
Definition hann (len n : Z) : R := 1 / 2 * (1 - cos (2 * PI * IZR (n + 1) / IZR (len + 1))).
Lemma hanning_loop_ok len : forall k n fuel v, (0 <= n)%Z -> (n + Z.of_nat k = len)%Z -> (len < U32)%Z -> (k <= fuel)%nat ->
  exists w, hanning_loop fuel (2 * PI / IZR (len + 1)) len n v = Some w /\ forall i, w i = if ((n <=? i) && (i <? len))%Z%bool then hann len i else v i.
Proof.
  induction k as [|k IH]; intros n fuel v H0 E L F.
  - exists v. split; [destruct fuel; cbn [hanning_loop]; destruct (Z.ltb_spec n len); try lia; reflexivity|]. intros i. destruct (Z.leb_spec n i), (Z.ltb_spec i len); try reflexivity; lia.
  - destruct fuel as [|fuel]; [lia|]. cbn [hanning_loop]. destruct (Z.ltb_spec n len); [|lia]. rewrite (Z.mod_small (n + 1) U32) by lia.
    destruct (IH (n + 1)%Z fuel (fun i => if (i =? n)%Z then 1 / 2 * (1 - cos (2 * PI / IZR (len + 1) * IZR (n + 1))) else v i)) as (w & Ew & Ww); try lia.
    exists w. split; [exact Ew|]. intros i. rewrite Ww. destruct (Z.leb_spec (n + 1) i), (Z.leb_spec n i), (Z.ltb_spec i len), (Z.eqb_spec i n); cbn [andb]; try reflexivity; try lia.
    subst i. unfold hann. do 2 f_equal. f_equal. unfold Rdiv. ring.
Qed.
Lemma hann_range len n : (0 <= n < len)%Z -> 0 < hann len n <= 1.
Proof.
  intros H. unfold hann. assert (P : 0 < IZR (len + 1)) by (apply IZR_lt; lia). assert (0 < IZR (n + 1) < IZR (len + 1)) by (split; apply IZR_lt; lia).
  set (a := 2 * PI * IZR (n + 1) / IZR (len + 1)). pose proof (COS_bound a). split; [|lra].
  replace a with (2 * (PI * IZR (n + 1) / IZR (len + 1))) by (unfold a, Rdiv; ring). rewrite cos_2a_sin. pose proof PI_RGT_0.
  assert (0 < sin (PI * IZR (n + 1) / IZR (len + 1))). { apply sin_gt_0; [apply Rdiv_lt_0_compat; [nra|exact P]|]. apply (Rmult_lt_reg_r (IZR (len + 1))); [exact P|]. unfold Rdiv. rewrite Rmult_assoc, Rinv_l by lra. nra. }
  nra.
Qed.
Lemma hann_sym len n : (0 <= n < len)%Z -> hann len n = hann len (len - 1 - n).
Proof.
  intros H. unfold hann. assert (P : 0 < IZR (len + 1)) by (apply IZR_lt; lia).
  replace (len - 1 - n + 1)%Z with (len + 1 - (n + 1))%Z by lia. rewrite (minus_IZR (len + 1) (n + 1)).
  replace (2 * PI * (IZR (len + 1) - IZR (n + 1)) / IZR (len + 1)) with (2 * PI - 2 * PI * IZR (n + 1) / IZR (len + 1)) by (field; lra).
  rewrite cos_flip. reflexivity.
Qed.
Theorem hanning_ok fuel v len : (1 < len < U32)%Z -> (Z.to_nat len <= fuel)%nat -> exists w, hanning fuel v len = Some w /\
  (forall i, (0 <= i < len)%Z -> w i = 1 / 2 * (1 - cos (2 * PI * IZR (i + 1) / IZR (len + 1))) /\ 0 < w i <= 1 /\ w i = w (len - 1 - i)%Z) /\
  forall i, (i < 0 \/ len <= i)%Z -> w i = v i.
Proof.
  intros L F. unfold hanning. destruct (Z.ltb_spec 1 len); [|lia]. cbv zeta.
  destruct (hanning_loop_ok len (Z.to_nat len) 0 fuel v) as (w & E & W); try lia. exists w. split; [exact E|]. split.
  - intros i Hi. assert (Q : forall j, (0 <= j < len)%Z -> w j = hann len j). { intros j Hj. rewrite W. destruct (Z.leb_spec 0 j), (Z.ltb_spec j len); try lia. reflexivity. }
    rewrite (Q i Hi). split; [reflexivity|]. split; [apply hann_range; exact Hi|]. rewrite Q by lia. apply hann_sym. exact Hi.
  - intros i Hi. rewrite W. destruct (Z.leb_spec 0 i), (Z.ltb_spec i len); try lia; reflexivity.
Qed.
Lemma hanning_stuck temp len : (U32 <= len)%Z -> forall fuel n v, (n < U32)%Z -> hanning_loop fuel temp len n v = None.
Proof.
  intros L. induction fuel as [|fuel IH]; intros n v H; cbn [hanning_loop]; destruct (Z.ltb_spec n len); try lia; [reflexivity|].
  apply IH. apply Z.mod_pos_bound. reflexivity.
Qed.

(** ** Kaiser *)
Lemma uniform (P : nat -> nat -> Prop) len : (forall n, (n < len)%nat -> exists f0, forall f, (f0 <= f)%nat -> P n f) -> exists f0, forall f, (f0 <= f)%nat -> forall n, (n < len)%nat -> P n f.
Proof.
  induction len as [|len IH]; intros H; [exists O; intros; lia|]. destruct IH as [f0 F0]; [intros; apply H; lia|]. destruct (H len ltac:(lia)) as [f1 F1].
  exists (f0 + f1)%nat. intros f Hf n Hn. destruct (Nat.eq_dec n len) as [->|]; [apply F1; lia|apply F0; lia].
Qed.
Definition karg (len : nat) (beta : R) (n : nat) : R := beta * sqrt (1 - (2 * INR n / INR (len - 1) - 1) * (2 * INR n / INR (len - 1) - 1)).
Lemma karg_range len n : (1 < len)%nat -> (n < len)%nat -> -1 <= 2 * INR n / INR (len - 1) - 1 <= 1.
Proof.
  intros L H. pose proof (len_pos len L) as P. pose proof (pos_INR n). assert (INR n <= INR (len - 1)) by (apply le_INR; lia).
  assert (0 <= 2 * INR n / INR (len - 1)) by (apply Rmult_le_pos; [lra|apply Rlt_le, Rinv_0_lt_compat, P]).
  assert (2 * INR n / INR (len - 1) <= 2). { apply (Rmult_le_reg_r (INR (len - 1))); [exact P|]. unfold Rdiv. rewrite Rmult_assoc, Rinv_l by lra. lra. }
  lra.
Qed.
Lemma karg_sym len beta n : (1 < len)%nat -> (n < len)%nat -> karg len beta n = karg len beta (len - 1 - n).
Proof.
  intros L H. pose proof (len_pos len L) as P. unfold karg. do 2 f_equal. rewrite (minus_INR (len - 1) n) by lia. field. lra.
Qed.
Lemma karg_le len beta n : (1 < len)%nat -> (n < len)%nat -> Rabs (karg len beta n) <= Rabs beta.
Proof.
  intros L H. pose proof (karg_range len n L H) as B. unfold karg. set (c := 2 * INR n / INR (len - 1) - 1) in *. rewrite Rabs_mult.
  assert (S1 : 0 <= sqrt (1 - c * c) <= 1). { split; [apply sqrt_pos|]. apply Rle_trans with (sqrt 1); [apply sqrt_le_1; nra|rewrite sqrt_1; lra]. }
  rewrite (Rabs_pos_eq (sqrt _)) by lra. pose proof (Rabs_pos beta). nra.
Qed.
Lemma ratio_error v vb l lb : 1 <= v <= vb -> 0 <= l - v <= 2 / 10000 -> 0 <= lb - vb <= 2 / 10000 -> l <= lb -> Rabs (v / vb - l / lb) <= 2 / 10000.
Proof.
  intros V E1 E2 L. assert (Q : v / vb - l / lb = (v * (lb - vb) - (l - v) * vb) / (vb * lb)) by (field; lra). rewrite Q.
  assert (P : 0 < vb * lb) by nra. apply Rabs_le. split.
  - apply (Rmult_le_reg_r (vb * lb)); [exact P|]. unfold Rdiv at 2. rewrite Rmult_assoc, Rinv_l by lra. nra.
  - apply (Rmult_le_reg_r (vb * lb)); [exact P|]. unfold Rdiv at 1. rewrite Rmult_assoc, Rinv_l by lra. nra.
Qed.
Theorem kaiser_ok len beta : (1 < len)%nat -> exists w f0, (forall f fill, (f0 <= f)%nat -> kaiser f fill len beta = Some w) /\ window len w /\
  (forall n, (n < len)%nat -> exists wn, nth_error w n = Some wn /\ 0 < wn /\
     forall l lb, is_I0 (beta * sqrt (1 - (2 * INR n / INR (len - 1) - 1) ^ 2)) l -> is_I0 beta lb -> Rabs (wn - l / lb) <= 2 / 10000) /\
  (forall k, len = (2 * k + 1)%nat -> nth_error w k = Some 1).
Proof.
  intros L. destruct (bessel_total beta) as [vb Bb]. pose proof (bessel_ge1 _ _ Bb) as Gb.
  assert (EX : exists g, forall n, (n < len)%nat -> bessel_is (karg len beta n) (g n)).
  { clear - L. generalize (karg len beta). intros a. clear L. induction len as [|m IH]; [exists (fun _ => 0); intros; lia|]. destruct IH as [g G]. destruct (bessel_total (a m)) as [v V].
    exists (fun n => if Nat.eqb n m then v else g n). intros n Hn. destruct (Nat.eqb_spec n m) as [->|]; [exact V|]. apply G. lia. }
  destruct EX as [g G]. exists (map (fun n => g n / vb) (seq 0 len)).
  assert (GG : forall n, (n < len)%nat -> 1 <= g n <= vb).
  { intros n Hn. split; [exact (bessel_ge1 _ _ (G n Hn))|]. apply (bessel_mono (karg len beta n) beta); [apply karg_le; assumption|exact (G n Hn)|exact Bb]. }
  destruct Bb as [f1 F1] eqn:EB. destruct (uniform (fun n f => bessel_I_0 f (karg len beta n) = Some (g n)) len) as [f0 F0]; [intros n Hn; exact (G n Hn)|].
  exists (f0 + f1)%nat. split; [|split; [|split]].
  - intros f fill Hf. unfold kaiser. destruct (Nat.ltb_spec 1 len); [|lia]. cbv zeta. rewrite F1 by lia. cbn [bind].
    rewrite <- (fill_ok (fun n => g n / vb) len fill). apply loop_ext. intros j t Hj.
    pose proof (karg_range len j L ltac:(lia)) as B. replace (2 / INR (len - 1) * INR j) with (2 * INR j / INR (len - 1)) by (unfold Rdiv; ring).
    destruct (Rlt_dec 1 (2 * INR j / INR (len - 1) - 1)); [lra|]. change (beta * sqrt _) with (karg len beta j). rewrite F0 by lia. reflexivity.
  - apply window_map.
    + intros n Hn. specialize (GG n Hn). split; [apply Rmult_le_pos; [lra|apply Rlt_le, Rinv_0_lt_compat; lra]|]. apply (Rmult_le_reg_r vb); [lra|]. unfold Rdiv. rewrite Rmult_assoc, Rinv_l by lra. lra.
    + intros n Hn. f_equal. apply (bessel_is_unique (karg len beta n)); [exact (G n Hn)|]. rewrite (karg_sym len beta n L Hn). apply G. lia.
  - intros n Hn. exists (g n / vb). split; [apply nth_map; exact Hn|]. specialize (GG n Hn). split; [apply Rdiv_lt_0_compat; lra|].
    intros l lb Hl Hlb. replace ((2 * INR n / INR (len - 1) - 1) ^ 2) with ((2 * INR n / INR (len - 1) - 1) * (2 * INR n / INR (len - 1) - 1)) in Hl by ring. fold (karg len beta n) in Hl.
    apply ratio_error; [exact GG| | |].
    + pose proof (bessel_error _ _ l (G n Hn) Hl) as E. destruct (Rle_dec (Rabs (karg len beta n)) 3); unfold eps in E; lra.
    + pose proof (bessel_error _ _ lb (ex_intro _ f1 F1) Hlb) as E. destruct (Rle_dec (Rabs beta) 3); unfold eps in E; lra.
    + apply (I0_mono _ _ _ _ Hl Hlb). pose proof (karg_le len beta n L Hn) as K. apply Rsqr_le_abs_1 in K. exact K.
  - intros k Hk. rewrite nth_map by lia. f_equal. assert (Q : g k = vb).
    { apply (bessel_is_unique beta); [|exists f1; exact F1]. assert (K : karg len beta k = beta).
      { unfold karg. replace (2 * INR k / INR (len - 1)) with 1; [replace (1 - (1 - 1) * (1 - 1)) with 1 by ring; rewrite sqrt_1; ring|].
        replace (len - 1)%nat with (2 * k)%nat by lia. rewrite mult_INR. cbn [INR]. field. apply not_0_INR. lia. }
      rewrite <- K. apply G. lia. }
    rewrite Q. field. lra.
Qed.
