(** Theorems about the comparison of values and views up to rounding. *)
From Coq Require Import ZArith List Lia Bool Arith QArith Qabs Qminmax.
From Coq Require Import SpecFloat.
From Verif Require Import Base Scalar ScalarProofs Equal EqualProofs.
Import ListNotations.
Open Scope Z_scope.

(** ** Floating-point numbers *)

(** The order of the operands does not matter, whatever they are (infinities
    and NaNs included). *)
Theorem C86_symmetric : forall f a b, f_equal_ f a b = f_equal_ f b a.
Proof. exact f_sym. Qed.
Print Assumptions C86_symmetric.

(** Every finite number equals itself. *)
Theorem C86_reflexive : forall f a, finite a -> f_equal_ f a a = true.
Proof. exact f_refl. Qed.
Print Assumptions C86_reflexive.

(** Without rounding: equal means that the difference is less than 1e-6 or at
    most 1e-4 times the smaller magnitude. *)
Theorem C86_meaning : forall a b : Q, q_equal a b = true <->
  (Qabs (a - b) < 1 # 1000000 \/ Qabs (a - b) <= (1 # 10000) * Qmin (Qabs a) (Qabs b))%Q.
Proof. exact q_meaning. Qed.
Print Assumptions C86_meaning.

(** With rounding: the same, the difference and the quotient being rounded;
    the tolerances are the numbers of the type nearest to 1e-6 and 1e-4. *)
Theorem C86_meaning_rounded :
  (forall a b, f_equal_ Double a b = true <->
     SFltb (SFabs (SFsub 53 1024 a b)) (S754_finite false 4722366482869645 (-72)) = true \/
     SFleb (SFabs (SFdiv 53 1024 (SFsub 53 1024 a b) (if SFltb (SFabs b) (SFabs a) then b else a)))
       (S754_finite false 7378697629483821 (-66)) = true) /\
  (forall a b, f_equal_ Float a b = true <->
     SFltb (SFabs (SFsub 24 128 a b)) (S754_finite false 8796093 (-43)) = true \/
     SFleb (SFabs (SFdiv 24 128 (SFsub 24 128 a b) (if SFltb (SFabs b) (SFabs a) then b else a)))
       (S754_finite false 13743895 (-37)) = true).
Proof. split; [exact double_meaning|exact float_meaning]. Qed.
Print Assumptions C86_meaning_rounded.

(** A few doubles. *)
Example C86_numbers :
  f_equal_ Double (of_int Double 1000000) (of_int Double 1000099) = true /\
  f_equal_ Double (of_int Double 1000000) (of_int Double 1000101) = false /\
  f_equal_ Float (of_int Float (-5)) (of_int Float 5) = false /\
  f_equal_ Double (of_int Double 0) (literal 1 2000000) = true /\
  f_equal_ Double (of_int Double 0) (literal 1 500000) = false /\
  q_equal 1000000 1000099 = true /\ q_equal 1000000 1000101 = false /\ q_equal 0 (1 # 500000) = false.
Proof. repeat split; vm_compute; reflexivity. Qed.

(** Limitation: the comparison is not transitive; results that are compared
    in two steps can be further apart than the tolerance. *)
Theorem C86_transitive_refuted : exists a b c, finite a /\ finite b /\ finite c /\
  f_equal_ Double a b = true /\ f_equal_ Double b c = true /\ f_equal_ Double a c = false.
Proof.
  exists (of_int Double 10000), (of_int Double 10001), (of_int Double 10002).
  repeat split; vm_compute; reflexivity.
Qed.
Print Assumptions C86_transitive_refuted.

(** Defect: an infinity is not equal to itself: the difference of two
    infinities is not a number, and there is no test for identical operands
    (equal.hpp 29-38).  A NaN or an infinity equals nothing. *)
Theorem C86_infinity_refuted :
  (forall f a b, ~ finite a -> f_equal_ f a b = false) /\
  f_equal_ Double (S754_infinity false) (S754_infinity false) = false.
Proof. split; [exact f_nonfinite|]. apply f_nonfinite. cbn. tauto. Qed.
Print Assumptions C86_infinity_refuted.

(** Complex numbers are equal if both parts are. *)
Theorem C86_complex : forall f a b c d,
  c_equal f (a, b) (c, d) = true <-> f_equal_ f a c = true /\ f_equal_ f b d = true.
Proof. intros f a b c d. unfold c_equal. cbn [fst snd]. apply andb_true_iff. Qed.
Print Assumptions C86_complex.

(** ** Integers *)

(** Integers are equal if they are the same number, when both types are
    signed or neither number is negative. *)
Theorem C86_integers : forall s t a b, fits s a -> fits t b ->
  ((is_signed s = true /\ is_signed t = true) \/ (0 <= a /\ 0 <= b)) ->
  (i_equal s t a b = true <-> a = b).
Proof.
  intros s t a b Fa Fb H. destruct (common_cmp s t a b Fa Fb) as [E1 E2].
  { destruct H as [[H1 H2]|H]; [left; apply common_signed; assumption|right; exact H]. }
  unfold i_equal, ieq, icmp. rewrite E1, E2. apply Z.eqb_eq.
Qed.
Print Assumptions C86_integers.

Example C86_integers_example : fits Int_ (-3) /\ fits Short_ (-3) /\ i_equal Int_ Short_ (-3) (-3) = true /\
  i_equal Int_ Short_ (-3) 3 = false.
Proof. unfold fits. cbn. repeat split; lia. Qed.

(** Defect: a negative and an unsigned integer can be equal (equal.hpp 41-46
    compares with ==). *)
Theorem C86_mixed_signs_refuted : exists a b, fits Int_ a /\ fits UInt b /\ a < 0 < b /\ i_equal Int_ UInt a b = true.
Proof. exists (-1), 4294967295. unfold fits. cbn. repeat split; lia. Qed.
Print Assumptions C86_mixed_signs_refuted.

(** ** An integer and a floating-point number *)

(** Defect: for a long long on the left and a double on the right the
    promotion type is long long, so the double is truncated, both tolerances
    become 0 and the relative error is an integer quotient: every two numbers
    within a factor of two are equal.  With the operands exchanged they are
    compared as doubles. *)
Theorem C86_long_long_refuted :
  (forall a b n, trunc b = Some n -> - 2 ^ 62 <= a < 2 ^ 62 -> - 2 ^ 62 <= n < 2 ^ 62 -> within_factor_two a n ->
     ll_double_equal a b = Some true) /\
  within_factor_two 5 9 /\
  ll_double_equal 5 (of_int Double 9) = Some true /\ double_ll_equal (of_int Double 9) 5 = false /\
  ll_double_equal 5 (literal 57 10) = Some true /\ double_ll_equal (literal 57 10) 5 = false.
Proof.
  split.
  - intros a b n E Ha Hn W. unfold ll_double_equal. rewrite E. apply ll_loose; assumption.
  - split; [left; lia|]. repeat split; vm_compute; reflexivity.
Qed.
Print Assumptions C86_long_long_refuted.

(** Defect: if the long long is 0 the program divides by zero, also when the
    double is 0. *)
Theorem C86_long_long_zero_refuted :
  (forall b n, trunc b = Some n -> - 2 ^ 62 <= n < 2 ^ 62 -> ll_double_equal 0 b = None) /\
  ll_double_equal 0 (S754_zero false) = None /\ double_ll_equal (S754_zero false) 0 = true.
Proof.
  split; [|split; vm_compute; reflexivity].
  intros b n E H. unfold ll_double_equal. rewrite E. apply ll_zero; apply in_ll_ok; lia.
Qed.
Print Assumptions C86_long_long_zero_refuted.

(** ** Views *)

(** Views are equal if their sizes are the same and so are all elements. *)
Theorem C86_vectors : forall A B (eqb : A -> B -> bool) n v n' w,
  equal_vector A B eqb n v n' w = true <-> n = n' /\ forall i, (i < n)%nat -> eqb (v i) (w i) = true.
Proof. exact vector_iff. Qed.
Print Assumptions C86_vectors.

Theorem C86_matrices : forall A B (eqb : A -> B -> bool) r c v r' c' w,
  equal_matrix A B eqb r c v r' c' w = true <->
  r = r' /\ c = c' /\ forall i j, (i < r)%nat -> (j < c)%nat -> eqb (v i j) (w i j) = true.
Proof. exact matrix_iff. Qed.
Print Assumptions C86_matrices.

Theorem C86_tensors : forall A B (eqb : A -> B -> bool) p r c v p' r' c' w,
  equal_tensor A B eqb p r c v p' r' c' w = true <->
  p = p' /\ r = r' /\ c = c' /\
  forall i j k, (i < p)%nat -> (j < r)%nat -> (k < c)%nat -> eqb (v i j k) (w i j k) = true.
Proof. exact tensor_iff. Qed.
Print Assumptions C86_tensors.

Example C86_views :
  equal_matrix Z Z Z.eqb 2 3 (fun i j => Z.of_nat (i + j)) 2 3 (fun i j => Z.of_nat (j + i)) = true /\
  equal_matrix Z Z Z.eqb 2 3 (fun i j => Z.of_nat (i + j)) 3 2 (fun i j => Z.of_nat (j + i)) = false /\
  equal_vector Z Z Z.eqb 3 (fun i => Z.of_nat i) 3 (fun i => if (i =? 2)%nat then 9 else Z.of_nat i) = false.
Proof. repeat split; vm_compute; reflexivity. Qed.
