(** Proofs about the random number generators. *)
From Coq Require Import ZArith QArith List Lia Bool Arith Lqa Znumtheory Zpow_facts Setoid Morphisms.
From Verif Require Import Base Random.
Import ListNotations.
Local Open Scope Z_scope.

(** Congruence modulo 2^32. *)
Definition eqm (x y : Z) := x mod W32 = y mod W32.
Global Instance eqm_equiv : Equivalence eqm.
Proof. split; [intros x; reflexivity | intros x y H; symmetry; exact H | intros x y z H1 H2; unfold eqm in *; congruence]. Qed.
Global Instance eqm_add : Proper (eqm ==> eqm ==> eqm) Z.add.
Proof. intros a b H c d H'. unfold eqm in *. rewrite (Zplus_mod a), (Zplus_mod b), H, H'. reflexivity. Qed.
Global Instance eqm_sub : Proper (eqm ==> eqm ==> eqm) Z.sub.
Proof. intros a b H c d H'. unfold eqm in *. rewrite (Zminus_mod a), (Zminus_mod b), H, H'. reflexivity. Qed.
Global Instance eqm_mul : Proper (eqm ==> eqm ==> eqm) Z.mul.
Proof. intros a b H c d H'. unfold eqm in *. rewrite (Zmult_mod a), (Zmult_mod b), H, H'. reflexivity. Qed.
Lemma eqm_u32 x : eqm (u32 x) x.
Proof. unfold eqm, u32. apply Z.mod_mod. discriminate. Qed.
Lemma eqm_mod x : eqm (x mod W32) x.
Proof. apply eqm_u32. Qed.
Lemma eqm_eq x y : eqm x y -> u32 x = u32 y. Proof. exact (fun H => H). Qed.
Lemma u32_small x : 0 <= x < W32 -> u32 x = x. Proof. apply Z.mod_small. Qed.
Lemma u32_range x : 0 <= u32 x < W32. Proof. apply Z.mod_pos_bound. reflexivity. Qed.

(** Geometric sums. *)
Fixpoint geo (a : Z) (n : nat) : Z := match n with O => 0 | S n => a * geo a n + 1 end.
Lemma geo_add a n m : geo a (n + m) = a ^ Z.of_nat m * geo a n + geo a m.
Proof.
  induction m as [|m IH]; [rewrite Nat.add_0_r; cbn [geo]; change (Z.of_nat 0) with 0; rewrite Z.pow_0_r; ring|].
  rewrite Nat.add_succ_r. cbn [geo]. rewrite IH. rewrite Nat2Z.inj_succ, Z.pow_succ_r by lia. ring.
Qed.
Lemma geo_mul a n m : geo a (n * m) = geo a n * geo (a ^ Z.of_nat n) m.
Proof.
  induction m as [|m IH]; [rewrite Nat.mul_0_r; cbn; ring|].
  rewrite Nat.mul_succ_r. replace (n * m + n)%nat with (n * m + n)%nat by lia. rewrite geo_add, IH. cbn [geo]. ring.
Qed.
Lemma geo_double a n : geo a (2 * n) = geo a n * (1 + a ^ Z.of_nat n).
Proof. replace (2 * n)%nat with (n * 2)%nat by lia. rewrite geo_mul. cbn [geo]. ring. Qed.
Lemma geo_pow a n : (a - 1) * geo a n + 1 = a ^ Z.of_nat n.
Proof. induction n as [|n IH]; [cbn [geo]; change (Z.of_nat 0) with 0; rewrite Z.pow_0_r; ring|]. rewrite Nat2Z.inj_succ, Z.pow_succ_r, <- IH by lia. cbn [geo]. ring. Qed.
Lemma geo_snoc a n : geo a (S n) = geo a n + a ^ Z.of_nat n.
Proof. rewrite <- geo_pow. cbn [geo]. ring. Qed.

Lemma pow_mod4 a n : a mod 4 = 1 -> (a ^ Z.of_nat n) mod 4 = 1.
Proof. intros H. induction n as [|n IH]; [reflexivity|]. rewrite Nat2Z.inj_succ, Z.pow_succ_r by lia. rewrite Zmult_mod, H, IH. reflexivity. Qed.
Lemma geo_mod2 a n : a mod 2 = 1 -> geo a n mod 2 = Z.of_nat n mod 2.
Proof.
  intros H. induction n as [|n IH]; [reflexivity|]. cbn [geo]. rewrite Nat2Z.inj_succ. rewrite Zplus_mod, Zmult_mod, H, Z.mul_1_l, IH, Z.mod_mod by lia.
  unfold Z.succ. rewrite (Zplus_mod (Z.of_nat n)). reflexivity.
Qed.
Lemma odd_cancel e x o : o mod 2 = 1 -> ((2 ^ Z.of_nat e | x * o) <-> (2 ^ Z.of_nat e | x)).
Proof.
  intros Ho. split; [|apply Z.divide_mul_l]. intros H. apply Gauss with (b := o); [rewrite Z.mul_comm; exact H|].
  apply rel_prime_sym. apply rel_prime_Zpower_r; [lia|]. apply rel_prime_sym. apply prime_rel_prime; [exact prime_2|].
  intros [z Hz]. rewrite Hz, Z.mod_mul in Ho by lia. discriminate.
Qed.
(** 2^e divides 1 + a + ... + a^(n-1) exactly when it divides n. *)
Lemma geo_div a e : a mod 4 = 1 -> forall n, (2 ^ Z.of_nat e | geo a n) <-> (2 ^ Z.of_nat e | Z.of_nat n).
Proof.
  intros Ha. assert (Ha2 : a mod 2 = 1) by (pose proof (Z.div_mod a 4 ltac:(lia)) as DM; rewrite Ha in DM; rewrite DM; replace (4 * (a / 4) + 1) with (1 + (2 * (a / 4)) * 2) by ring; rewrite Z.mod_add by lia; reflexivity).
  induction e as [|e IH]; intros n.
  - change (2 ^ Z.of_nat 0) with 1. split; intros; apply Z.divide_1_l.
  - destruct (Nat.Even_or_Odd n) as [[q ->]|[q Hq]].
    + rewrite geo_double. rewrite Nat2Z.inj_mul, Nat2Z.inj_succ, Z.pow_succ_r by lia.
      pose proof (pow_mod4 a q Ha) as P4. pose proof (Z.div_mod (a ^ Z.of_nat q) 4 ltac:(lia)) as DM. rewrite P4 in DM.
      set (w := a ^ Z.of_nat q / 4) in *. rewrite DM. replace (1 + (4 * w + 1)) with (2 * (2 * w + 1)) by ring.
      replace (geo a q * (2 * (2 * w + 1))) with (2 * (geo a q * (2 * w + 1))) by ring.
      change (Z.of_nat 2) with 2. rewrite !Z.mul_divide_cancel_l by lia. rewrite odd_cancel; [apply IH|].
      rewrite Z.mul_comm, Z.add_comm, Z.mod_add by lia. reflexivity.
    + assert (O1 : geo a n mod 2 = 1) by (rewrite geo_mod2 by exact Ha2; rewrite Hq; rewrite Nat2Z.inj_add, Nat2Z.inj_mul; rewrite Z.mul_comm, Z.add_comm, Z.mod_add by lia; reflexivity).
      assert (O2 : Z.of_nat n mod 2 = 1) by (rewrite <- (geo_mod2 a n Ha2); exact O1).
      rewrite Nat2Z.inj_succ, Z.pow_succ_r by lia.
      split; intros H; exfalso; (assert (D : (2 | 2 * 2 ^ Z.of_nat e)) by apply Z.divide_factor_l);
        pose proof (Z.divide_trans _ _ _ D H) as T; apply Z.mod_divide in T; lia.
Qed.

(** The sequence. *)
Lemma seq_x_range s n : 0 <= seq_x s n < W32.
Proof. destruct n; apply Z.mod_pos_bound; reflexivity. Qed.
Lemma seq_x_closed s n : eqm (seq_x s n) (A0 ^ Z.of_nat n * s + C0 * geo A0 n).
Proof.
  induction n as [|n IH].
  - cbn [seq_x geo]. rewrite eqm_mod. change (Z.of_nat 0) with 0. rewrite Z.pow_0_r. replace (1 * s + C0 * 0) with s by ring. reflexivity.
  - cbn [seq_x geo]. rewrite eqm_mod, IH. rewrite Nat2Z.inj_succ, Z.pow_succ_r by lia.
    replace (A0 * (A0 ^ Z.of_nat n * s + C0 * geo A0 n) + C0) with (A0 * A0 ^ Z.of_nat n * s + C0 * (A0 * geo A0 n + 1)) by ring. reflexivity.
Qed.
Lemma seq_x_seq s n m : seq_x (seq_x s n) m = seq_x s (n + m).
Proof.
  induction m as [|m IH]; [rewrite Nat.add_0_r; cbn [seq_x]; apply Z.mod_small, seq_x_range|].
  rewrite Nat.add_succ_r. cbn [seq_x]. rewrite IH. reflexivity.
Qed.
Lemma seq_x_mod s s' n : eqm s s' -> seq_x s n = seq_x s' n.
Proof. intros H. induction n as [|n IH]; cbn [seq_x]; [exact H|]. rewrite IH. reflexivity. Qed.
Lemma iter_lcg s n : Nat.iter n (fun x => u32 (A0 * x + C0)) (u32 s) = seq_x s n.
Proof. induction n as [|n IH]; [reflexivity|]. cbn [seq_x Nat.iter nat_rect]. unfold Nat.iter in IH. rewrite IH. reflexivity. Qed.
(** Full period: Hull and Dobell. *)
Lemma w32_pow : W32 = 2 ^ Z.of_nat 32. Proof. reflexivity. Qed.
Lemma seq_x_period s n : seq_x s n = seq_x s 0 <-> (W32 | Z.of_nat n).
Proof.
  rewrite w32_pow. rewrite <- (geo_div A0 32 eq_refl n). rewrite <- w32_pow.
  assert (E : eqm (seq_x s n - s) (geo A0 n * ((A0 - 1) * s + C0))).
  { rewrite seq_x_closed. rewrite <- geo_pow.
    replace (((A0 - 1) * geo A0 n + 1) * s + C0 * geo A0 n - s) with (geo A0 n * ((A0 - 1) * s + C0)) by ring. reflexivity. }
  assert (O : ((A0 - 1) * s + C0) mod 2 = 1).
  { replace ((A0 - 1) * s + C0) with (1 + ((A0 - 1) / 2 * s + C0 / 2) * 2); [rewrite Z.mod_add by lia; reflexivity|].
    change (A0 - 1) with (832262 * 2). change C0 with (506952111 * 2 + 1). rewrite !Z.div_mul, Z.div_add_l by lia. change (1 / 2) with 0. ring. }
  assert (D : (W32 | geo A0 n) <-> (W32 | geo A0 n * ((A0 - 1) * s + C0))) by (rewrite w32_pow; symmetry; apply odd_cancel; exact O).
  rewrite D. rewrite <- Z.mod_divide by discriminate. change (geo A0 n * ((A0 - 1) * s + C0) mod W32 = 0) with (eqm (geo A0 n * ((A0 - 1) * s + C0)) 0).
  rewrite <- E. split; intros H.
  - rewrite H. cbn [seq_x]. rewrite eqm_mod. replace (s - s) with 0 by ring. reflexivity.
  - assert (H' : eqm (seq_x s n) s) by (replace (seq_x s n) with (seq_x s n - s + s) by ring; rewrite H; replace (0 + s) with s by ring; reflexivity).
    rewrite <- (Z.mod_small (seq_x s n) W32 (seq_x_range s n)). cbn [seq_x]. exact H'.
Qed.
Lemma seq_x_eq s n m : seq_x s n = seq_x s m <-> Z.of_nat n mod W32 = Z.of_nat m mod W32.
Proof.
  assert (W : forall n m, (n <= m)%nat -> (seq_x s n = seq_x s m <-> Z.of_nat n mod W32 = Z.of_nat m mod W32)).
  { clear. intros n m H. replace (seq_x s m) with (seq_x (seq_x s n) (m - n)) by (rewrite seq_x_seq; f_equal; lia).
    replace (seq_x s n) with (seq_x (seq_x s n) 0) at 1 by (rewrite seq_x_seq; f_equal; lia).
    split; intros E.
    - symmetry in E. apply seq_x_period in E. destruct E as [z Ez].
      replace (Z.of_nat m) with (Z.of_nat n + z * W32) by lia. rewrite Z.mod_add by discriminate. reflexivity.
    - symmetry. apply seq_x_period. apply Z.mod_divide; [discriminate|]. rewrite Nat2Z.inj_sub by lia.
      rewrite Zminus_mod, E, Z.sub_diag. reflexivity. }
  destruct (Nat.le_ge_cases n m) as [H|H]; [apply W; exact H|].
  split; intros E; symmetry; apply W; auto; symmetry; exact E.
Qed.

(** The generators' multipliers and adders. *)
Lemma strip_ok fuel : forall k n, 0 < k < 2 ^ Z.of_nat fuel -> 0 <= n -> n + Z.of_nat fuel < W32 ->
  exists k0 e, strip fuel k n = Some (k0, n + Z.of_nat e) /\ 0 < k0 /\ k = k0 * 2 ^ Z.of_nat e.
Proof.
  induction fuel as [|fuel IH]; intros k n Hk Hn HW; [change (2 ^ Z.of_nat 0) with 1 in Hk; lia|].
  cbn [strip]. destruct (Z.eqb_spec (k mod 2) 0) as [E|E].
  - pose proof (Z.div_mod k 2 ltac:(lia)) as DM. rewrite E, Z.add_0_r in DM.
    rewrite Nat2Z.inj_succ, Z.pow_succ_r in Hk by lia. rewrite u32_small by lia.
    destruct (IH (k / 2) (n + 1)) as (k0 & e & E1 & P & E2); [lia | lia | lia |].
    exists k0, (S e). split; [rewrite E1; do 2 f_equal; lia|]. split; [exact P|].
    rewrite DM, E2. rewrite Nat2Z.inj_succ, Z.pow_succ_r by lia. ring.
  - exists k, 0%nat. split; [rewrite Z.add_0_r; reflexivity|]. split; [lia|]. change (2 ^ Z.of_nat 0) with 1. lia.
Qed.
Lemma iter_pow x n : eqm (Nat.iter n (fun a => u32 (a * A0)) x) (x * A0 ^ Z.of_nat n).
Proof.
  induction n as [|n IH]; [cbn [Nat.iter nat_rect]; change (Z.of_nat 0) with 0; rewrite Z.pow_0_r, Z.mul_1_r; reflexivity|].
  change (Nat.iter (S n) (fun a => u32 (a * A0)) x) with (u32 (Nat.iter n (fun a => u32 (a * A0)) x * A0)).
  rewrite eqm_u32, IH. rewrite Nat2Z.inj_succ, Z.pow_succ_r by lia. replace (x * A0 ^ Z.of_nat n * A0) with (x * (A0 * A0 ^ Z.of_nat n)) by ring. reflexivity.
Qed.
Lemma iter_double a (q n : nat) c t : eqm t (a ^ Z.of_nat q) ->
  let r := Nat.iter n (fun '(c, t) => (u32 (c * u32 (t + 1)), u32 (t * t))) (c, t) in
  eqm (snd r) (a ^ Z.of_nat (q * 2 ^ n)) /\ eqm (fst r * geo a q) (c * geo a (q * 2 ^ n)).
Proof.
  intros Ht. induction n as [|n IH].
  - cbn [Nat.iter nat_rect fst snd Nat.pow]. rewrite Nat.mul_1_r. split; [exact Ht|reflexivity].
  - change (Nat.iter (S n) (fun '(c, t) => (u32 (c * u32 (t + 1)), u32 (t * t))) (c, t)) with ((fun '(c, t) => (u32 (c * u32 (t + 1)), u32 (t * t))) (Nat.iter n (fun '(c, t) => (u32 (c * u32 (t + 1)), u32 (t * t))) (c, t))).
    cbv zeta in *. destruct (Nat.iter n _ (c, t)) as [c' t']. cbn [fst snd] in *. destruct IH as [I1 I2].
    replace (q * 2 ^ S n)%nat with (2 * (q * 2 ^ n))%nat by (cbn; lia). split.
    + rewrite eqm_u32, I1. replace (2 * (q * 2 ^ n))%nat with (q * 2 ^ n + q * 2 ^ n)%nat by lia. rewrite Nat2Z.inj_add, Z.pow_add_r by lia. reflexivity.
    + rewrite !eqm_u32, I1. rewrite geo_double.
      replace (c' * (a ^ Z.of_nat (q * 2 ^ n) + 1) * geo a q) with (c' * geo a q * (1 + a ^ Z.of_nat (q * 2 ^ n))) by ring. rewrite I2.
      rewrite Z.mul_assoc. reflexivity.
Qed.
Lemma iter_geo n : let r := Nat.iter n (fun '(t, n) => (u32 (t + n), u32 (n * A0))) (1, A0) in eqm (fst r) (geo A0 (S n)) /\ eqm (snd r) (A0 ^ Z.of_nat (S n)).
Proof.
  induction n as [|n IH]; [split; reflexivity|].
  change (Nat.iter (S n) (fun '(t, n) => (u32 (t + n), u32 (n * A0))) (1, A0)) with ((fun '(t, n) => (u32 (t + n), u32 (n * A0))) (Nat.iter n (fun '(t, n) => (u32 (t + n), u32 (n * A0))) (1, A0))).
  cbv zeta in *. destruct (Nat.iter n _ (1, A0)) as [t' n']. cbn [fst snd] in *. destruct IH as [I1 I2]. split.
  - rewrite eqm_u32, I1, I2. rewrite (geo_snoc A0 (S n)). reflexivity.
  - rewrite eqm_u32, I2. rewrite (Nat2Z.inj_succ (S n)), Z.pow_succ_r by lia. rewrite Z.mul_comm. reflexivity.
Qed.
Lemma leap_ok seed k id : (0 < k)%nat -> Z.of_nat k < W32 -> (0 < id)%nat -> Z.of_nat id < W32 ->
  exists g, make false seed (Z.of_nat k) (Z.of_nat id) = Some g /\ portable_ g = false /\ X_ g = seq_x seed id /\
    eqm (a_ g) (A0 ^ Z.of_nat k) /\ eqm (c_ g) (C0 * geo A0 k).
Proof.
  intros Hk HkW Hi HiW. unfold make. destruct (Z.ltb_spec 0 (Z.of_nat id)); [|lia]. cbn [bind]. unfold make_nonportable.
  destruct (Z.ltb_spec (Z.of_nat id) W32); [|lia]. cbn [bind]. rewrite (u32_small (Z.of_nat k)) by lia.
  destruct (strip_ok 33 (Z.of_nat k) 0) as (k0 & e & E & P & Ek); [change (2 ^ Z.of_nat 33) with (2 * W32); lia | lia | reflexivity |].
  rewrite E. cbn [bind]. rewrite Z.add_0_l. unfold times. rewrite Nat2Z.id.
  rewrite (u32_small (Z.of_nat k - 1)) by lia. replace (Z.to_nat (Z.of_nat k - 1)) with (k - 1)%nat by lia. rewrite Nat2Z.id.
  set (q := Z.to_nat k0). assert (Eq : k = (q * 2 ^ e)%nat) by (apply Nat2Z.inj; rewrite Nat2Z.inj_mul, Nat2Z.inj_pow; unfold q; rewrite Z2Nat.id by lia; exact Ek).
  pose proof (iter_double A0 q e 1 (Nat.iter q (fun t => u32 (t * A0)) 1)) as D. cbv zeta in D.
  assert (T : eqm (Nat.iter q (fun t => u32 (t * A0)) 1) (A0 ^ Z.of_nat q)) by (rewrite iter_pow, Z.mul_1_l; reflexivity). specialize (D T).
  destruct (Nat.iter e (fun '(c, t) => (u32 (c * u32 (t + 1)), u32 (t * t))) (1, Nat.iter q (fun t => u32 (t * A0)) 1)) as [c t] eqn:Ec. cbn [fst snd] in D.
  pose proof (iter_geo (q - 1)) as G. cbv zeta in G. replace (Z.to_nat (k0 - 1)) with (q - 1)%nat by lia.
  destruct (Nat.iter (q - 1) (fun '(t, n) => (u32 (t + n), u32 (n * A0))) (1, A0)) as [t' n'] eqn:Eg. cbn [fst snd] in G.
  replace (S (q - 1)) with q in G by lia.
  eexists. split; [reflexivity|]. cbn [portable_ X_ a_ c_]. split; [reflexivity|]. split; [apply iter_lcg|]. split.
  - rewrite iter_pow. replace (Z.of_nat k) with (Z.succ (Z.of_nat (k - 1))) by lia. rewrite Z.pow_succ_r by lia. reflexivity.
  - rewrite !eqm_u32. rewrite (proj1 G). replace (c * (geo A0 q * C0)) with (C0 * (c * geo A0 q)) by ring. rewrite (proj2 D), Z.mul_1_l, <- Eq. reflexivity.
Qed.
Lemma snd_randu g : snd (randu g) = snd (draw g).
Proof. unfold randu. destruct (draw g). reflexivity. Qed.
Lemma fst_randu g : fst (randu g) = unit_of (fst (draw g)).
Proof. unfold randu. destruct (draw g). reflexivity. Qed.
Lemma leap_step g seed k n : portable_ g = false -> eqm (a_ g) (A0 ^ Z.of_nat k) -> eqm (c_ g) (C0 * geo A0 k) -> X_ g = seq_x seed n ->
  fst (draw g) = seq_x seed (n + k) /\ X_ (snd (draw g)) = seq_x seed (n + k) /\ portable_ (snd (draw g)) = false /\ a_ (snd (draw g)) = a_ g /\ c_ (snd (draw g)) = c_ g.
Proof.
  intros P A C X. unfold draw. rewrite P. cbn [fst snd X_ portable_ a_ c_].
  assert (E : u32 (a_ g * X_ g + c_ g) = seq_x seed (n + k)).
  { rewrite <- seq_x_seq. rewrite <- (u32_small (seq_x (seq_x seed n) k)) by apply seq_x_range. apply eqm_eq. rewrite A, C, X, (seq_x_closed (seq_x seed n) k). reflexivity. }
  rewrite E. auto.
Qed.
Lemma leap_after g seed k id : portable_ g = false -> eqm (a_ g) (A0 ^ Z.of_nat k) -> eqm (c_ g) (C0 * geo A0 k) -> X_ g = seq_x seed id ->
  forall j, portable_ (after j g) = false /\ a_ (after j g) = a_ g /\ c_ (after j g) = c_ g /\ X_ (after j g) = seq_x seed (id + j * k).
Proof.
  intros P A C X. induction j as [|j (I1 & I2 & I3 & I4)]; [rewrite Nat.add_0_r; auto|].
  cbn [after]. rewrite snd_randu. destruct (leap_step (after j g) seed k (id + j * k)) as (_ & E1 & E2 & E3 & E4); auto; try (rewrite I2 || rewrite I3; assumption).
  - rewrite E1, E2, E3, E4, I2, I3. repeat split; auto. f_equal. lia.
Qed.
Lemma leap_output g seed k id j : portable_ g = false -> eqm (a_ g) (A0 ^ Z.of_nat k) -> eqm (c_ g) (C0 * geo A0 k) -> X_ g = seq_x seed id ->
  output g j = unit_of (seq_x seed (id + (j + 1) * k)).
Proof.
  intros P A C X. destruct (leap_after g seed k id P A C X j) as (I1 & I2 & I3 & I4). unfold output. rewrite fst_randu. f_equal.
  destruct (leap_step (after j g) seed k (id + j * k)) as (E & _); auto; try (rewrite I2 || rewrite I3; assumption).
  rewrite E. f_equal. lia.
Qed.
Lemma leapfrog seed k : (0 < k)%nat -> Z.of_nat k < W32 -> exists g1, make false seed 1 1 = Some g1 /\
  forall id, (0 < id)%nat -> Z.of_nat id < W32 -> exists g, make false seed (Z.of_nat k) (Z.of_nat id) = Some g /\
    forall j, output g j = output g1 (id + (j + 1) * k - 2).
Proof.
  intros Hk HW. destruct (leap_ok seed 1 1) as (g1 & E1 & P1 & X1 & A1 & C1); try lia; try reflexivity. exists g1. split; [exact E1|].
  intros id Hi HiW. destruct (leap_ok seed k id) as (g & E & P & X & A & C); auto. exists g. split; [exact E|]. intros j.
  rewrite (leap_output g seed k id) by assumption. rewrite (leap_output g1 seed 1 1) by assumption. do 2 f_equal.
  assert (k <= (j + 1) * k)%nat by (rewrite <- (Nat.mul_1_l k) at 1; apply Nat.mul_le_mono_r; lia). lia.
Qed.
Lemma unit_inj x y : unit_of x = unit_of y -> x = y.
Proof. unfold unit_of. congruence. Qed.
Lemma single_distinct seed g1 : make false seed 1 1 = Some g1 -> forall i j, output g1 i = output g1 j <-> (Z.of_nat i mod W32 = Z.of_nat j mod W32).
Proof.
  intros E. destruct (leap_ok seed 1 1) as (g & E1 & P1 & X1 & A1 & C1); try lia; try reflexivity.
  change (Z.of_nat 1) with 1 in E1. assert (g = g1) by congruence. subst g1. intros i j.
  rewrite !(leap_output g seed 1 1) by assumption.
  assert (S : forall n, (Z.of_nat (1 + (n + 1) * 1)) = Z.of_nat n + 2) by (intros; lia).
  split; intros H.
  - apply unit_inj in H. apply seq_x_eq in H. rewrite !S in H.
    assert (Q : eqm (Z.of_nat i + 2 - 2) (Z.of_nat j + 2 - 2)) by (apply eqm_sub; [exact H|reflexivity]).
    replace (Z.of_nat i + 2 - 2) with (Z.of_nat i) in Q by ring. replace (Z.of_nat j + 2 - 2) with (Z.of_nat j) in Q by ring. exact Q.
  - f_equal. apply seq_x_eq. rewrite !S. apply eqm_add; [exact H|reflexivity].
Qed.

(** Portable: jumping ahead. *)
Lemma jump_ok s skip n : 0 <= skip < W32 -> (n <= 32)%nat ->
  let '(mask, a0, c0, x) := Nat.iter n (fun '(mask, a0, c0, x) => (u32 (Z.shiftl mask 1), u32 (a0 * a0), u32 (u32 (a0 + 1) * c0), if Z.land mask skip =? 0 then x else u32 (a0 * x + c0))) (1, A0, C0, u32 s) in
  mask = u32 (2 ^ Z.of_nat n) /\ eqm a0 (A0 ^ (2 ^ Z.of_nat n)) /\ eqm c0 (C0 * geo A0 (Z.to_nat (2 ^ Z.of_nat n))) /\ x = seq_x s (Z.to_nat (skip mod 2 ^ Z.of_nat n)).
Proof.
  intros Hs. induction n as [|n IH]; intros Hn.
  - cbn [Nat.iter nat_rect]. change (2 ^ Z.of_nat 0) with 1. rewrite Z.mod_1_r. split; [reflexivity|]. split; [reflexivity|]. split; [reflexivity|]. reflexivity.
  - specialize (IH ltac:(lia)).
    set (F := fun '(mask, a0, c0, x) => (u32 (Z.shiftl mask 1), u32 (a0 * a0), u32 (u32 (a0 + 1) * c0), if Z.land mask skip =? 0 then x else u32 (a0 * x + c0))) in *.
    change (Nat.iter (S n) F (1, A0, C0, u32 s)) with (F (Nat.iter n F (1, A0, C0, u32 s))).
    destruct (Nat.iter n F (1, A0, C0, u32 s)) as [[[mask a0] c0] x]. destruct IH as (Im & Ia & Ic & Ix). unfold F. cbv beta iota.
    set (p := 2 ^ Z.of_nat n) in *. assert (Hp : 0 < p) by (apply Z.pow_pos_nonneg; lia).
    assert (Ep : 2 ^ Z.of_nat (S n) = 2 * p) by (rewrite Nat2Z.inj_succ, Z.pow_succ_r by lia; reflexivity). rewrite Ep.
    assert (Hpw : p < W32) by (unfold p; rewrite w32_pow; apply Z.pow_lt_mono_r; lia). rewrite (u32_small p) in Im by lia. subst mask.
    split; [rewrite Z.shiftl_mul_pow2 by lia; f_equal; ring|]. split; [|split].
    + rewrite eqm_u32, Ia. rewrite <- Z.pow_add_r by lia. replace (p + p) with (2 * p) by ring. reflexivity.
    + rewrite !eqm_u32, Ia, Ic. replace (Z.to_nat (2 * p)) with (2 * Z.to_nat p)%nat by lia. rewrite geo_double, Z2Nat.id by lia.
      replace ((A0 ^ p + 1) * (C0 * geo A0 (Z.to_nat p))) with (C0 * (geo A0 (Z.to_nat p) * (1 + A0 ^ p))) by ring. reflexivity.
    + assert (B : Z.land p skip = if Z.testbit skip (Z.of_nat n) then p else 0).
      { unfold p. apply Z.bits_inj'. intros i Hi. rewrite Z.land_spec, Z.pow2_bits_eqb by lia.
        destruct (Z.eqb_spec (Z.of_nat n) i) as [<-|Ne]; cbn [andb].
        - destruct (Z.testbit skip (Z.of_nat n)); [rewrite Z.pow2_bits_eqb, Z.eqb_refl by lia; reflexivity|rewrite Z.bits_0; reflexivity].
        - destruct (Z.testbit skip (Z.of_nat n)); [rewrite Z.pow2_bits_eqb by lia; destruct (Z.eqb_spec (Z.of_nat n) i); [congruence|reflexivity]|rewrite Z.bits_0; reflexivity]. }
      assert (M : skip mod (2 * p) = skip mod p + (if Z.testbit skip (Z.of_nat n) then p else 0)).
      { rewrite Z.mul_comm. rewrite Z.rem_mul_r by lia. change (skip / p) with (skip / 2 ^ Z.of_nat n). rewrite <- (Z.testbit_spec' skip (Z.of_nat n)) by lia.
        fold p. destruct (Z.testbit skip (Z.of_nat n)); cbn [Z.b2z]; ring. }
      rewrite B, M. pose proof (Z.mod_pos_bound skip p Hp). destruct (Z.testbit skip (Z.of_nat n)).
      * destruct (Z.eqb_spec p 0); [lia|]. rewrite Z2Nat.inj_add by lia. rewrite <- seq_x_seq, <- Ix.
        assert (Ex : eqm x (u32 x)) by (symmetry; apply eqm_u32).
        rewrite <- (u32_small (seq_x x (Z.to_nat p))) by apply seq_x_range. apply eqm_eq. rewrite Ia, Ic, seq_x_closed, Z2Nat.id by lia. reflexivity.
      * rewrite Z.add_0_r. exact Ix.
Qed.
Lemma primes_len : length primes = 100%nat. Proof. reflexivity. Qed.
Lemma portable_ok seed k id : (0 < k)%nat -> Z.of_nat k < W32 -> (0 < id <= 100)%nat -> (id <= k)%nat ->
  exists g c, make true seed (Z.of_nat k) (Z.of_nat id) = Some g /\ nth_error primes (id - 1) = Some c /\ portable_ g = true /\
   X_ g = seq_x seed (Z.to_nat (4294967295 / Z.of_nat k) * (id - 1)) /\ a_ g = A0 /\ c_ g = C0 /\ a1_ g = A1 /\ c1_ g = c /\ X1_ g = 1 /\ X2_ g = 1.
Proof.
  intros Hk HkW Hi Hik. unfold make. destruct (Z.ltb_spec 0 (Z.of_nat id)); [|lia]. cbn [bind]. unfold make_portable.
  destruct (Z.leb_spec (Z.of_nat id) 100); [|lia]. cbn [bind]. replace (Z.to_nat (Z.of_nat id - 1)) with (id - 1)%nat by lia.
  destruct (nth_error primes (id - 1)) as [c|] eqn:Ec; [|apply nth_error_None in Ec; rewrite primes_len in Ec; lia]. cbn [bind].
  rewrite (u32_small (Z.of_nat k)) by lia. destruct (Z.ltb_spec 1 (Z.of_nat id)) as [L|L].
  - destruct (Z.eqb_spec (Z.of_nat k) 0); [lia|]. cbn [negb bind].
    set (d := 4294967295 / Z.of_nat k).
    assert (Hd : 0 <= d /\ d * Z.of_nat k <= 4294967295) by (unfold d; split; [apply Z.div_pos; lia | rewrite Z.mul_comm; apply Z.mul_div_le; lia]).
    assert (Hsk : 0 <= d * (Z.of_nat id - 1) < W32).
    { split; [apply Z.mul_nonneg_nonneg; lia|]. apply Z.le_lt_trans with (d * Z.of_nat k); [apply Z.mul_le_mono_nonneg_l; lia|]. change W32 with 4294967296. lia. }
    rewrite (u32_small (d * (Z.of_nat id - 1))) by exact Hsk.
    pose proof (jump_ok seed (d * (Z.of_nat id - 1)) 32 Hsk ltac:(lia)) as J. unfold times. change (Z.to_nat 32) with 32%nat.
    destruct (Nat.iter 32 _ (1, A0, C0, u32 seed)) as [[[mask a0] c0] x]. destruct J as (_ & _ & _ & Jx). cbn [bind].
    rewrite <- w32_pow, Z.mod_small in Jx by exact Hsk.
    do 2 eexists. split; [reflexivity|]. cbn [portable_ X_ a_ c_ a1_ c1_ X1_ X2_]. split; [reflexivity|]. split; [reflexivity|]. split; [|repeat split].
    rewrite Jx. f_equal. rewrite Z2Nat.inj_mul by lia. f_equal. lia.
  - cbn [bind]. assert (id = 1)%nat by lia. subst id.
    do 2 eexists. split; [reflexivity|]. cbn [portable_ X_ a_ c_ a1_ c1_ X1_ X2_]. split; [reflexivity|]. split; [reflexivity|]. split; [|repeat split].
    rewrite Nat.mul_0_r. reflexivity.
Qed.
Lemma seq_y_range c n : 0 <= fst (seq_y c n) < W32 /\ 0 <= snd (seq_y c n) < W32.
Proof.
  assert (M : forall x, 0 <= x mod W32 < W32) by (intros; apply Z.mod_pos_bound; reflexivity).
  induction n as [|n [I1 I2]]; [cbn; change W32 with 4294967296; lia|]. cbn [seq_y]. destruct (seq_y c n) as [y z]. cbn [fst snd] in *.
  destruct (_ =? z); cbn [fst snd]; auto.
Qed.
Lemma portable_after g seed c s : portable_ g = true -> X_ g = seq_x seed s -> a_ g = A0 -> c_ g = C0 -> a1_ g = A1 -> c1_ g = c -> X1_ g = 1 -> X2_ g = 1 ->
  forall j, portable_ (after j g) = true /\ X_ (after j g) = seq_x seed (s + j) /\ (X1_ (after j g), X2_ (after j g)) = seq_y c j /\
    a_ (after j g) = A0 /\ c_ (after j g) = C0 /\ a1_ (after j g) = A1 /\ c1_ (after j g) = c.
Proof.
  intros P X Ea Ec Ea1 Ec1 E1 E2. induction j as [|j (I1 & I2 & I3 & I4 & I5 & I6 & I7)].
  - cbn [after seq_y]. rewrite Nat.add_0_r, E1, E2. auto 10.
  - cbn [after seq_y]. rewrite snd_randu. unfold draw. rewrite I1, I2, I4, I5, I6, I7. destruct (seq_y c j) as [y z]. injection I3 as -> ->.
    rewrite (Z.mul_comm y A1), (Z.mul_comm _ A0). change (u32 (A1 * y + c)) with ((A1 * y + c) mod W32).
    rewrite Nat.add_succ_r. cbn [seq_x].
    destruct ((A1 * y + c) mod W32 =? z); cbn [snd portable_ X_ X1_ X2_ a_ c_ a1_ c1_]; auto 10.
Qed.
Lemma portable_output seed k id : (0 < k)%nat -> Z.of_nat k < W32 -> (0 < id <= 100)%nat -> (id <= k)%nat ->
  exists g c, make true seed (Z.of_nat k) (Z.of_nat id) = Some g /\ nth_error primes (id - 1) = Some c /\
   forall j, X_ (after j g) = seq_x seed (Z.to_nat (4294967295 / Z.of_nat k) * (id - 1) + j) /\ (X1_ (after j g), X2_ (after j g)) = seq_y c j /\
     output g j = unit_of ((seq_x seed (Z.to_nat (4294967295 / Z.of_nat k) * (id - 1) + S j) - (A1 * fst (seq_y c j) + c)) mod W32).
Proof.
  intros Hk HW Hi Hik. destruct (portable_ok seed k id) as (g & c & E & Ep & P & X & B1 & B2 & B3 & B4 & B5 & B6); auto.
  exists g, c. split; [exact E|]. split; [exact Ep|]. intros j.
  destruct (portable_after g seed c _ P X B1 B2 B3 B4 B5 B6 j) as (I1 & I2 & I3 & I4 & I5 & I6 & I7).
  split; [exact I2|]. split; [exact I3|]. unfold output. rewrite fst_randu. f_equal. unfold draw. rewrite I1, I2, I4, I5, I6, I7.
  rewrite <- I3. cbn [fst]. rewrite Nat.add_succ_r. cbn [seq_x].
  destruct (u32 (X1_ (after j g) * A1 + c) =? X2_ (after j g)); cbn [fst]; apply eqm_eq; rewrite !eqm_u32, eqm_mod;
    rewrite (Z.mul_comm _ A0), (Z.mul_comm _ A1); reflexivity.
Qed.
Lemma portable_disjoint seed k id id' g g' j j' : (0 < k)%nat -> Z.of_nat k < W32 -> (0 < id <= 100)%nat -> (id <= k)%nat -> (0 < id' <= 100)%nat -> (id' <= k)%nat -> id <> id' ->
  make true seed (Z.of_nat k) (Z.of_nat id) = Some g -> make true seed (Z.of_nat k) (Z.of_nat id') = Some g' ->
  Z.of_nat j < 4294967295 / Z.of_nat k -> Z.of_nat j' < 4294967295 / Z.of_nat k -> X_ (after j g) <> X_ (after j' g').
Proof.
  intros Hk HW Hi Hik Hi' Hik' Ne E E' Hj Hj'.
  destruct (portable_output seed k id) as (g0 & c & E0 & _ & F); auto. assert (g0 = g) by congruence. subst g0.
  destruct (portable_output seed k id') as (g0 & c' & E0' & _ & F'); auto. assert (g0 = g') by congruence. subst g0.
  destruct (F j) as (-> & _). destruct (F' j') as (-> & _). intros H. apply seq_x_eq in H.
  set (d := 4294967295 / Z.of_nat k) in *.
  assert (Hd : 0 <= d /\ d * Z.of_nat k <= 4294967295) by (unfold d; split; [apply Z.div_pos; lia | rewrite Z.mul_comm; apply Z.mul_div_le; lia]).
  clearbody d. clear F F' E E' E0 E0'.
  assert (B : forall i t, (0 < i <= k)%nat -> Z.of_nat t < d -> 0 <= Z.of_nat (Z.to_nat d * (i - 1) + t) < W32).
  { clear H. intros i t H1 H2. rewrite Nat2Z.inj_add, Nat2Z.inj_mul, Z2Nat.id by lia. assert (d * Z.of_nat (i - 1) <= d * (Z.of_nat k - 1)) by (apply Z.mul_le_mono_nonneg_l; lia).
    assert (0 <= d * Z.of_nat (i - 1)) by (apply Z.mul_nonneg_nonneg; lia). change W32 with 4294967296. lia. }
  rewrite !Z.mod_small in H by (apply B; lia).
  rewrite !Nat2Z.inj_add, !Nat2Z.inj_mul, !Z2Nat.id in H by lia.
  assert (S : forall a b x y, a < b -> 0 <= x < d -> 0 <= y -> d * a + x < d * b + y).
  { intros a b x y H1 H2 H3. assert (d * (a + 1) <= d * b) by (apply Z.mul_le_mono_nonneg_l; lia). lia. }
  destruct (Nat.lt_trichotomy id id') as [L|[L|L]]; [|contradiction|].
  - pose proof (S (Z.of_nat (id - 1)) (Z.of_nat (id' - 1)) (Z.of_nat j) (Z.of_nat j')). lia.
  - pose proof (S (Z.of_nat (id' - 1)) (Z.of_nat (id - 1)) (Z.of_nat j') (Z.of_nat j)). lia.
Qed.

Lemma cover k i : (0 < k)%nat -> (k - 1 <= i)%nat -> exists id j, (0 < id <= k)%nat /\ i = (id + (j + 1) * k - 2)%nat.
Proof.
  intros Hk Hi. pose proof (Nat.div_mod (i + 1 - k) k ltac:(lia)) as D. pose proof (Nat.mod_upper_bound (i + 1 - k) k ltac:(lia)) as B.
  exists ((i + 1 - k) mod k + 1)%nat, ((i + 1 - k) / k)%nat. rewrite (Nat.mul_comm k) in D. rewrite Nat.mul_add_distr_r. generalize dependent ((i + 1 - k) / k)%nat. generalize dependent ((i + 1 - k) mod k)%nat. intros m Hm q Hq. lia.
Qed.
Lemma cover_unique k id j id' j' : (0 < id <= k)%nat -> (0 < id' <= k)%nat -> (id + (j + 1) * k - 2 = id' + (j' + 1) * k - 2)%nat -> id = id' /\ j = j'.
Proof.
  intros H H' E. assert (G : forall q, (k <= (q + 1) * k)%nat) by (intros q; rewrite <- (Nat.mul_1_l k) at 1; apply Nat.mul_le_mono_r; lia).
  pose proof (G j). pose proof (G j'). rewrite !Nat.mul_add_distr_r, !Nat.mul_1_l in *.
  assert (E' : ((id - 1) + j * k = (id' - 1) + j' * k)%nat).
  { destruct (Nat.eq_dec k 1) as [->|]; lia. }
  assert (X : (id - 1 = id' - 1)%nat).
  { rewrite <- (Nat.mod_small (id - 1) k), <- (Nat.mod_small (id' - 1) k) by lia. rewrite <- (Nat.mod_add (id - 1) j k), <- (Nat.mod_add (id' - 1) j' k) by lia. f_equal. exact E'. }
  split; [lia|]. apply (Nat.mul_cancel_r _ _ k); lia.
Qed.
Lemma zero_procs seed id : 0 < id < W32 -> make false seed 0 id = None.
Proof.
  intros H. unfold make. destruct (Z.ltb_spec 0 id); [|lia]. cbn [bind]. unfold make_nonportable. destruct (Z.ltb_spec id W32); [|lia]. cbn [bind].
  change (strip 33 (u32 0) 0) with (@None (Z * Z)). reflexivity.
Qed.
Lemma zero_procs_portable seed id : 1 < id -> make true seed 0 id = None.
Proof.
  intros H. unfold make. destruct (Z.ltb_spec 0 id); [|lia]. cbn [bind]. unfold make_portable. destruct (Z.leb_spec id 100); [|reflexivity]. cbn [bind].
  destruct (nth_error primes (Z.to_nat (id - 1))); [|reflexivity]. cbn [bind]. destruct (Z.ltb_spec 1 id); [|lia]. reflexivity.
Qed.

(** Ranges. *)
Lemma draw_range g : 0 <= fst (draw g) < W32.
Proof. unfold draw. destruct (portable_ g); [destruct (_ =? _)|]; cbn [fst]; apply u32_range. Qed.
Lemma unit_range x : 0 <= x < W32 -> (0 <= unit_of x < 1)%Q.
Proof. change W32 with 4294967296. intros H. unfold unit_of, Qle, Qlt. cbn. lia. Qed.
Lemma randu_range g : (0 <= fst (randu g) < 1)%Q.
Proof. rewrite fst_randu. apply unit_range, draw_range. Qed.
Lemma draw_portable g : portable_ (snd (draw g)) = portable_ g.
Proof. unfold draw. destruct (portable_ g) eqn:E; [destruct (_ =? _)|]; reflexivity. Qed.
Fixpoint qsum (f : nat -> Q) (n : nat) : Q := match n with O => 0%Q | S n => (qsum f n + f n)%Q end.
Lemma accumulate_ok n g : accumulate n g = (qsum (output g) n, after n g).
Proof.
  unfold accumulate. induction n as [|n IH]; [reflexivity|]. cbn [Nat.iter nat_rect]. unfold Nat.iter in IH. rewrite IH.
  cbn [qsum after]. unfold output. rewrite fst_randu, snd_randu. destruct (draw (after n g)). reflexivity.
Qed.
Lemma qsum_range f n : (forall i, (0 <= f i < 1)%Q) -> (0 <= qsum f n)%Q /\ ((0 < n)%nat -> (qsum f n < inject_Z (Z.of_nat n))%Q).
Proof.
  intros H. induction n as [|n [I1 I2]]; [split; [cbn; lra|lia]|]. cbn [qsum]. destruct (H n). split; [lra|]. intros _.
  rewrite Nat2Z.inj_succ. unfold Z.succ. rewrite inject_Z_plus. change (inject_Z 1) with 1%Q. destruct n as [|n]; [change (inject_Z (Z.of_nat 0)) with 0%Q; cbn [qsum]; lra|]. specialize (I2 ltac:(lia)). lra.
Qed.
Lemma after_after m : forall n g, after m (after n g) = after (n + m) g.
Proof. induction m as [|m IH]; intros n g; [rewrite Nat.add_0_r; reflexivity|]. rewrite Nat.add_succ_r. cbn [after]. rewrite IH. reflexivity. Qed.
Lemma output_after g n i : output (after n g) i = output g (n + i).
Proof. unfold output. rewrite after_after. reflexivity. Qed.
Lemma randn_ok g : randn g = ((if portable_ g then 6 - qsum (output g) 12 else qsum (output g) 12 - 6)%Q, after 12 g).
Proof. unfold randn. rewrite accumulate_ok. reflexivity. Qed.
Lemma randn_complex_ok g : randn_complex g =
  ((3 - qsum (fun i => output g (3 + i)) 3 - qsum (output g) 3, qsum (output g) 3 - qsum (fun i => output g (3 + i)) 3)%Q, after 6 g).
Proof.
  unfold randn_complex. rewrite accumulate_ok, accumulate_ok, after_after. change (3 + 3)%nat with 6%nat.
  assert (Q : qsum (output (after 3 g)) 3 = qsum (fun i => output g (3 + i)) 3).
  { generalize 3%nat at 2 4. intros n. induction n as [|n IH]; [reflexivity|]. cbn [qsum]. rewrite IH, output_after. reflexivity. }
  rewrite Q. reflexivity.
Qed.

(** Views. *)
Lemma assign_view_ok v : assign_view v = Some (map (output (rng v)) (seq 0 (length_ v)), {| length_ := length_ v; rng := after (length_ v) (rng v) |}).
Proof.
  unfold assign_view.
  set (F := fun (i : nat) '(l, v) => x <- view_get v i ;; let '(x, v) := x in Some (l ++ [x], v)).
  destruct (loop_inv F (fun j s => s = (map (output (rng v)) (seq 0 j), {| length_ := length_ v; rng := after j (rng v) |})) (length_ v) 0%nat ([], v)) as (s & E & P).
  - destruct v; reflexivity.
  - intros j s Hj ->. unfold F, view_get. cbn [length_]. destruct (Nat.ltb_spec j (length_ v)); [|lia]. cbn [bind rng].
    rewrite (surjective_pairing (randu (after j (rng v)))). eexists. split; [reflexivity|]. rewrite ?Nat.add_1_r, seq_S, map_app. reflexivity.
  - rewrite E, P. reflexivity.
Qed.
