(** C28-C30: reductions. *)
From Coq Require Import ZArith List Lia Bool Arith.
From Verif Require Import Base Reduce ReduceProofs.
Import ListNotations.
Local Open Scope nat_scope.

(** * C28: sums, means, counts *)
(** Whatever the dimensions and the dimension order of the block. *)
Theorem C28_sumval (K : CRing) o get ext (v : list nat -> K) : order_of o ext -> holds get ext v ->
  reduce (Sum_value K) o get ext = Some (sum_over ext v).
Proof. intros H G. exact (sum_lemma K (Sum_value K) (fun x => x) o get ext v (fun _ => eq_refl) (fun _ _ => eq_refl) eq_refl H G). Qed.
Theorem C28_sumsqval (K : CRing) o get ext (v : list nat -> K) : order_of o ext -> holds get ext v ->
  reduce (Sum_sq_value K) o get ext = Some (sum_over ext (fun i => rmul (v i) (v i))).
Proof. intros H G. exact (sum_lemma K (Sum_sq_value K) (fun x => rmul x x) o get ext v (fun _ => eq_refl) (fun _ _ => eq_refl) eq_refl H G). Qed.
Theorem C28_meanval (K : CRing) R (divn : K -> nat -> R) o get ext (v : list nat -> K) : order_of o ext -> holds get ext v ->
  reduce (Mean_value K divn) o get ext = Some (divn (sum_over ext v) (size ext)).
Proof. intros H G. exact (sum_lemma K (Mean_value K divn) (fun x => x) o get ext v (fun _ => eq_refl) (fun _ _ => eq_refl) eq_refl H G). Qed.
Theorem C28_meansqval (K : CRing) A R (magsq : A -> K) (divn : K -> nat -> R) o get ext (v : list nat -> A) : order_of o ext -> holds get ext v ->
  reduce (Mean_magsq_value K magsq divn) o get ext = Some (divn (sum_over ext (fun i => magsq (v i))) (size ext)).
Proof. intros H G. exact (sum_lemma K (Mean_magsq_value K magsq divn) magsq o get ext v (fun _ => eq_refl) (fun _ _ => eq_refl) eq_refl H G). Qed.
Theorem C28_sum_of_magsq (K : CRing) A (magsq : A -> K) o get ext (v : list nat -> A) : order_of o ext -> holds get ext v ->
  reduce (Sum_magsq_value K magsq) o get ext = Some (sum_over ext (fun i => magsq (v i))).
Proof. intros H G. exact (sum_lemma K (Sum_magsq_value K magsq) magsq o get ext v (fun _ => eq_refl) (fun _ _ => eq_refl) eq_refl H G). Qed.
Theorem C28_sumval_bool o get ext v : order_of o ext -> holds get ext v -> reduce Sum_bool o get ext = Some (count_true ext v).
Proof. exact (count_lemma o get ext v). Qed.

(** Single-precision vectors of any length, below, at and above the switch
    to partial sums, if their elements are adjacent in memory. *)
Theorem C28_float_sum_unit_stride (K : CRing) (m : mem K) data n w divn : (forall i, i < n -> m (data + Z.of_nat i)%Z = Some (w i)) ->
  reduce1_float (Sum_value K) false false (fun x => x) divn m data 1 n = Some (sum w n).
Proof. intros H. exact (float_ok K (Sum_value K) false false (fun x => x) divn m data n w (fun _ => eq_refl) (fun _ _ => eq_refl) eq_refl (fun _ => eq_refl) H). Qed.
Theorem C28_float_sumsq_unit_stride (K : CRing) (m : mem K) data n w divn : (forall i, i < n -> m (data + Z.of_nat i)%Z = Some (w i)) ->
  reduce1_float (Sum_sq_value K) true false (fun x => x) divn m data 1 n = Some (sum (fun i => rmul (w i) (w i)) n).
Proof. intros H. exact (float_ok K (Sum_sq_value K) true false (fun x => x) divn m data n w (fun _ => eq_refl) (fun _ _ => eq_refl) eq_refl (fun _ => eq_refl) H). Qed.
Theorem C28_float_mean_unit_stride (K : CRing) (m : mem K) data n w divn : (forall i, i < n -> m (data + Z.of_nat i)%Z = Some (w i)) ->
  reduce1_float (Mean_value K divn) false true (fun x => x) divn m data 1 n = Some (divn (sum w n) n).
Proof. intros H. exact (float_ok K (Mean_value K divn) false true (fun x => x) divn m data n w (fun _ => eq_refl) (fun _ _ => eq_refl) eq_refl (fun _ => eq_refl) H). Qed.
Theorem C28_float_meansq_unit_stride (K : CRing) (m : mem K) data n w divn : (forall i, i < n -> m (data + Z.of_nat i)%Z = Some (w i)) ->
  reduce1_float (Mean_magsq_value K (fun x => rmul x x) divn) true true (fun x => x) divn m data 1 n = Some (divn (sum (fun i => rmul (w i) (w i)) n) n).
Proof. intros H. exact (float_ok K (Mean_magsq_value K (fun x => rmul x x) divn) true true (fun x => x) divn m data n w (fun _ => eq_refl) (fun _ _ => eq_refl) eq_refl (fun _ => eq_refl) H). Qed.

Example C28_example : reduce (Sum_value Zring) [1;0] (fun i => Some (Z.of_nat (10 * nth 0 i 0 + nth 1 i 0))) [2;3] = Some 36%Z /\
  reduce Sum_bool [2;0;1] (fun i => Some (nth 0 i 0 =? nth 2 i 0)) [2;2;2] = Some 4 /\
  order_of [2;0;1] [2;2;2] /\ holds (fun i => Some (nth 0 i 0 =? nth 2 i 0)) [2;2;2] (fun i => nth 0 i 0 =? nth 2 i 0).
Proof. split; [reflexivity|]. split; [reflexivity|]. split; [cbn; auto 10|]. intros i _. reflexivity. Qed.
Example C28_long_example : reduce1_float (K := Zring) (Sum_value Zring) false false (fun x => x) (fun x _ => x) (fun a => Some a) 0 1 5000 = Some 12497500%Z.
Proof. vm_compute. reflexivity. Qed.

(** A long single-precision vector whose elements are not adjacent (every
    second element of an array): the partial sums ignore the stride.  The
    elements are all zero; the result is one. *)
Theorem C28_float_strided_refuted : exists (m : mem Z) w, (forall i, i < 4096 -> m (Z.of_nat i * 2)%Z = Some (w i)) /\
  sum (A := Zring) w 4096 = 0%Z /\
  reduce1_float (K := Zring) (Sum_value Zring) false false (fun x => x) (fun x _ => x) m 0 2 4096 = Some 1%Z.
Proof.
  exists (fun a => Some (if Z.eqb a 1 then 1 else 0)%Z), (fun _ => 0%Z). split.
  - intros i _. f_equal. destruct (Z.eqb_spec (Z.of_nat i * 2) 1); [lia|reflexivity].
  - split; vm_compute; reflexivity.
Qed.

(** Gaussian integers. *)
Definition zcadd (x y : Z * Z) : Z * Z := (fst x + fst y, snd x + snd y)%Z.
Definition zcmul (x y : Z * Z) : Z * Z := (fst x * fst y - snd x * snd y, fst x * snd y + snd x * fst y)%Z.
Definition zcopp (x : Z * Z) : Z * Z := (- fst x, - snd x)%Z.
Definition zc_th : ring_theory (0, 0)%Z (1, 0)%Z zcadd zcmul (fun x y => zcadd x (zcopp y)) zcopp eq.
Proof.
  constructor; intros; repeat match goal with x : (Z * Z)%type |- _ => destruct x end; unfold zcadd, zcmul, zcopp; cbn [fst snd]; f_equal; ring.
Qed.
Definition ZC : CRing := {| car := Z * Z; r0 := (0, 0)%Z; r1 := (1, 0)%Z; radd := zcadd; rmul := zcmul; rsub := fun x y => zcadd x (zcopp y); ropp := zcopp; r_th := zc_th |}.
(** meansqval of a long complex single-precision vector sums z*z and takes
    the real part; 4096 copies of the imaginary unit have mean square 1,
    the result is -1. *)
Theorem C28_float_complex_meansq_refuted : exists (m : mem (Z * Z)%type) F,
  F = Mean_magsq_value (A := Z * Z) Zring (fun z => fst z * fst z + snd z * snd z)%Z (fun s n => (s / Z.of_nat n)%Z) /\
  (forall a, m a = Some (0, 1)%Z) /\
  reduce1 F (fun i => m (Z.of_nat (hd 0 i))) 4096 = Some 1%Z /\
  reduce1_float (K := ZC) F true true fst (fun s n => (s / Z.of_nat n)%Z) m 0 1 4096 = Some (-1)%Z.
Proof. eexists (fun _ => Some (0, 1)%Z), _. split; [reflexivity|]. split; [reflexivity|]. split; vm_compute; reflexivity. Qed.

(** * C29: logical reductions *)
Theorem C29_alltrue ones o get ext v : order_of o ext -> holds get ext v ->
  exists r, reduce (All_true ones) o get ext = Some r /\
    forall b, Z.testbit r b = true <-> Z.testbit ones b = true /\ forall i, in_ext ext i -> Z.testbit (v i) b = true.
Proof. exact (all_true_lemma ones o get ext v). Qed.
(** The value state is compared with to stop early has all the bits that the
    elements can have. *)
Theorem C29_anytrue cmp o get ext v : order_of o ext -> holds get ext v ->
  (forall i, in_ext ext i -> Z.lor cmp (v i) = cmp) ->
  exists r, reduce (Any_true cmp) o get ext = Some r /\
    forall b, Z.testbit r b = true <-> exists i, in_ext ext i /\ Z.testbit (v i) b = true.
Proof. exact (any_true_lemma cmp o get ext v). Qed.
Theorem C29_alltrue_bool o get ext v : order_of o ext -> holds get ext v ->
  exists r, reduce All_true_bool o get ext = Some r /\ (r = true <-> forall i, in_ext ext i -> v i = true).
Proof. exact (all_bool_lemma o get ext v). Qed.
Theorem C29_anytrue_bool o get ext v : order_of o ext -> holds get ext v ->
  exists r, reduce Any_true_bool o get ext = Some r /\ (r = true <-> exists i, in_ext ext i /\ v i = true).
Proof. exact (any_bool_lemma o get ext v). Qed.
(** The comparison value is the int -1 (signed types and types narrower
    than int) or all bits of an unsigned type. *)
Example C29_example :
  (forall x, Z.lor (-1) x = -1)%Z /\ (forall x, (0 <= x < 2 ^ 32)%Z -> Z.lor (2 ^ 32 - 1) x = (2 ^ 32 - 1)%Z) /\
  reduce (Any_true (2 ^ 32 - 1)) [1;0] (fun i => Some (if (nth 0 i 0 =? 1)%nat then 2 ^ 32 - 1 else 5)%Z) [3;2] = Some (2 ^ 32 - 1)%Z /\
  reduce (All_true (-1)) [0;1] (fun i => Some (if (nth 0 i 0 =? 1)%nat then 6 else 3)%Z) [3;2] = Some 2%Z.
Proof.
  split; [intros x; apply Z.lor_m1_l|]. split; [|split; reflexivity]. intros x H. apply Z.bits_inj'. intros n Hn. rewrite Z.lor_spec.
  destruct (Z.lt_ge_cases n 32) as [L|L].
  - change (2 ^ 32 - 1)%Z with (Z.ones 32). rewrite Z.ones_spec_low by lia. reflexivity.
  - replace (Z.testbit x n) with false; [apply orb_false_r|]. destruct (Z.eq_dec x 0) as [->|N]; [rewrite Z.bits_0; reflexivity|].
    symmetry. apply Z.bits_above_log2; [lia|]. apply Z.log2_lt_pow2; [lia|]. apply Z.lt_le_trans with (2 ^ 32)%Z; [lia|]. apply Z.pow_le_mono_r; lia.
Qed.

(** * C30: extremum and first index *)
(** No element is better than the returned value, which is that of the
    returned index; every element visited earlier (the last dimension of the
    block's dimension order varies fastest) is strictly worse. *)
Theorem C30_extremum A K (key : A -> K) (better : K -> K -> bool) o get ext v : strict_weak better ->
  order_of o ext -> Forall (fun n => 0 < n) ext -> holds get ext v ->
  exists idx, reduce_idx key better o get ext = Some (key (v idx), idx) /\ in_ext ext idx /\
    (forall i, in_ext ext i -> better (key (v i)) (key (v idx)) = false) /\
    (forall i, in_ext ext i -> before o i idx -> better (key (v idx)) (key (v i)) = true).
Proof. intros SW. exact (extremum_lemma key better SW o get ext v). Qed.
(** Column-major and row-major searches; [before] on two index pairs. *)
Example C30_example : strict_weak Z.gtb /\ strict_weak Z.ltb /\
  reduce_idx Z.abs Z.gtb [1;0] (fun i => Some (if ((nth 0 i 0 =? 1) && (nth 1 i 0 =? 0))%nat then -7 else if (nth 1 i 0 =? 2)%nat then 7 else 0)%Z) [2;3] = Some (7%Z, [1;0]) /\
  reduce_idx (fun x => x) Z.ltb [0;1] (fun i => Some (Z.of_nat (nth 0 i 0 * nth 1 i 0))) [2;3] = Some (0%Z, [0;0]) /\
  before [1;0] [1;0] [0;2] /\ before [0;1] [0;2] [1;0].
Proof.
  repeat split; intros; repeat match goal with |- _ => rewrite Z.gtb_ltb in * end.
  all: try (apply Z.ltb_irrefl).
  all: try (rewrite Z.ltb_lt in *; lia).
  all: try (rewrite Z.ltb_ge in *; lia).
  - exists 0. cbn. repeat split; try lia.
  - exists 0. cbn. repeat split; try lia.
Qed.
(** On an empty view the search still reads the element at index zero. *)
Theorem C30_empty_view_refuted : exists (get : list nat -> option Z), holds get [0] (fun _ => 0%Z) /\ reduce_idx (fun x => x) Z.gtb [0] get [0] = None.
Proof. exists (fun _ => None). split; [|reflexivity]. intros i H. inversion H as [|x ? l ? Hx]; subst. lia. Qed.

Print Assumptions C28_sumval.
Print Assumptions C28_sumsqval.
Print Assumptions C28_meanval.
Print Assumptions C28_meansqval.
Print Assumptions C28_sum_of_magsq.
Print Assumptions C28_sumval_bool.
Print Assumptions C28_float_sum_unit_stride.
Print Assumptions C28_float_sumsq_unit_stride.
Print Assumptions C28_float_mean_unit_stride.
Print Assumptions C28_float_meansq_unit_stride.
Print Assumptions C28_float_strided_refuted.
Print Assumptions C28_float_complex_meansq_refuted.
Print Assumptions C29_alltrue.
Print Assumptions C29_anytrue.
Print Assumptions C29_alltrue_bool.
Print Assumptions C29_anytrue_bool.
Print Assumptions C30_extremum.
Print Assumptions C30_empty_view_refuted.
