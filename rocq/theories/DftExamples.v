(** Concrete data for the examples in DftProps: the twiddle factors of lengths
    1, 2 and 4, which are Gaussian integers. *)
From Coq Require Import ZArith List Bool Arith Lia Ring.
From Verif Require Import Base Dft.
Import ListNotations.
Local Open Scope nat_scope.

(** cos and sin of -2 pi n / l for l = 1, 2, 4, as sin_cos computes them. *)
Definition ztrig : trig Zring :=
  Build_trig Zring
    (fun l n => if Nat.eqb l 4 then (if (n mod 4 =? 0) then 1 else if (n mod 4 =? 2) then -1 else 0)
                else if Nat.eqb l 2 then (if (n mod 2 =? 0) then 1 else -1) else 1)%Z
    (fun l n => if Nat.eqb l 4 then (if (n mod 4 =? 1) then 1 else if (n mod 4 =? 3) then -1 else 0) else 0)%Z.

Lemma mod4 n : (exists k, n = 4 * k \/ n = 4 * k + 1 \/ n = 4 * k + 2 \/ n = 4 * k + 3)%Z.
Proof. exists (n / 4)%Z. pose proof (Z.div_mod n 4). pose proof (Z.mod_pos_bound n 4). lia. Qed.
Lemma mod4_0 k : ((4 * k) mod 4 = 0)%Z. Proof. rewrite Z.mul_comm. apply Z.mod_mul. lia. Qed.
Lemma mod4_i k i : (0 <= i < 4)%Z -> ((4 * k + i) mod 4 = i)%Z.
Proof. intros H. rewrite Z.add_comm, Z.mul_comm, Z.mod_add by lia. apply Z.mod_small, H. Qed.
Lemma mod2_0 k : ((2 * k) mod 2 = 0)%Z. Proof. rewrite Z.mul_comm. apply Z.mod_mul. lia. Qed.
Lemma mod2_1 k : ((2 * k + 1) mod 2 = 1)%Z.
Proof. rewrite Z.add_comm, Z.mul_comm, Z.mod_add by lia. reflexivity. Qed.

Definition tw4 (r : Z) : Z * Z := (if (r =? 0) then (1, 0) else if (r =? 1) then (0, 1) else if (r =? 2) then (-1, 0) else (0, -1))%Z.
Lemma sc4 n : sin_cos Zring ztrig 4 n = tw4 (n mod 4).
Proof. destruct (mod4 n) as [k [E|[E|[E|E]]]]; unfold sin_cos, ztrig; cbn [cs sn Nat.eqb]; subst n; rewrite ?mod4_0, ?mod4_i by lia; reflexivity. Qed.
Definition tw2 (r : Z) : Z * Z := (if (r =? 0) then (1, 0) else (-1, 0))%Z.
Lemma sc2 n : sin_cos Zring ztrig 2 n = tw2 (n mod 2).
Proof. unfold sin_cos, ztrig; cbn [cs sn Nat.eqb]. unfold tw2. destruct (n mod 2 =? 0)%Z; reflexivity. Qed.

Lemma ztrig4 : exact Zring ztrig 4.
Proof.
  constructor.
  - reflexivity.
  - intros a b. rewrite !sc4, Zplus_mod. pose proof (Z.mod_pos_bound a 4). pose proof (Z.mod_pos_bound b 4).
    assert (A : (a mod 4 = 0 \/ a mod 4 = 1 \/ a mod 4 = 2 \/ a mod 4 = 3)%Z) by lia.
    assert (B : (b mod 4 = 0 \/ b mod 4 = 1 \/ b mod 4 = 2 \/ b mod 4 = 3)%Z) by lia.
    destruct A as [-> | [-> | [-> | -> ]]]; destruct B as [-> | [-> | [-> | -> ]]]; reflexivity.
  - intros a. rewrite !sc4. destruct (mod4 a) as [k [E|[E|[E|E]]]]; subst a; rewrite ?mod4_0, ?mod4_i by lia.
    + replace (- (4 * k))%Z with (4 * - k)%Z by lia. rewrite mod4_0. reflexivity.
    + replace (- (4 * k + 1))%Z with (4 * (- k - 1) + 3)%Z by lia. rewrite mod4_i by lia. reflexivity.
    + replace (- (4 * k + 2))%Z with (4 * (- k - 1) + 2)%Z by lia. rewrite mod4_i by lia. reflexivity.
    + replace (- (4 * k + 3))%Z with (4 * (- k - 1) + 1)%Z by lia. rewrite mod4_i by lia. reflexivity.
  - reflexivity.
  - intros j Hj. assert (j = 1 \/ j = 2 \/ j = 3) as [-> | [-> | -> ]] by lia; reflexivity.
Qed.
Lemma ztrig2 : exact Zring ztrig 2.
Proof.
  constructor.
  - reflexivity.
  - intros a b. rewrite !sc2, Zplus_mod. pose proof (Z.mod_pos_bound a 2). pose proof (Z.mod_pos_bound b 2).
    assert (A : (a mod 2 = 0 \/ a mod 2 = 1)%Z) by lia. assert (B : (b mod 2 = 0 \/ b mod 2 = 1)%Z) by lia.
    destruct A as [-> | -> ]; destruct B as [-> | -> ]; reflexivity.
  - intros a. rewrite !sc2. assert (E : ((- a) mod 2 = a mod 2)%Z).
    { pose proof (Z.div_mod a 2). pose proof (Z.mod_pos_bound a 2). assert (a mod 2 = 0 \/ a mod 2 = 1)%Z as [A|A] by lia; rewrite A in *.
      - replace (- a)%Z with (2 * - (a / 2))%Z by lia. apply mod2_0.
      - replace (- a)%Z with (2 * (- (a / 2) - 1) + 1)%Z by lia. apply mod2_1. }
    rewrite E. unfold tw2. destruct (a mod 2 =? 0)%Z; reflexivity.
  - reflexivity.
  - intros j Hj. assert (j = 1) as -> by lia. reflexivity.
Qed.
Lemma ztrig1 : exact Zring ztrig 1.
Proof.
  constructor.
  - reflexivity.
  - intros a b. reflexivity.
  - intros a. reflexivity.
  - reflexivity.
  - intros j Hj. lia.
Qed.

(** A memory with one array of reals and one of complex numbers. *)
Definition zmem (r : list Z) (c : list (Z * Z)) : st Zring := St Zring (mem_of (V := Zring) r) (mem_of (V := Cr Zring) c) (fun _ => None).
(** What a run leaves at the given addresses of each. *)
Definition outc (l : list Z) (o : option (st Zring)) := option_map (fun m => map (cm Zring m) l) o.
Definition outr (l : list Z) (o : option (st Zring)) := option_map (fun m => map (rm Zring m) l) o.

(** Memory layouts: [dist], [disj] and the bounds on offsets of concrete arrays. *)
Lemma rcell_inj a b : RCell a = RCell b -> a = b. Proof. intros H. injection H. auto. Qed.
Lemma ccell_inj a b : CCell a = CCell b -> a = b. Proof. intros H. injection H. auto. Qed.
Ltac lay :=
  cbv [dist disj ix1 ix2 ix3 at1 at2 at3 off apart cells cpx_ptr real_ptr int_ok Nat.div Nat.divmod fst snd Nat.add]; intros;
  repeat match goal with
  | i : (nat * _)%type |- _ => destruct i
  end; cbn [fst snd In] in *;
  repeat match goal with
  | H : _ \/ _ |- _ => destruct H
  | H : False |- _ => contradiction
  | H : _ /\ _ |- _ => destruct H
  | |- ~ _ => intro
  end;
  try (subst; match goal with
  | H : RCell _ = RCell _ |- _ => apply rcell_inj in H
  | H : CCell _ = CCell _ |- _ => apply ccell_inj in H
  | H : RCell _ = CCell _ |- _ => discriminate H
  | H : CCell _ = RCell _ |- _ => discriminate H
  | _ => idtac
  end);
  try exact I; try lia.
Ltac lays := lay; try (exfalso; match goal with H : _ <> _ |- _ => apply H; repeat f_equal; lia end); auto.
