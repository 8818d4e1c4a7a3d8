(** Lemmas about the comparisons of Equal.v. *)
From Coq Require Import ZArith List Lia Bool Arith QArith Qabs Qminmax Lqa.
From Coq Require Import SpecFloat.
From Verif Require Import Base Scalar Equal.
Import ListNotations.
Open Scope Z_scope.

(** ** IEEE arithmetic: magnitudes *)
Section Fmt.
Variables p m : Z.

Lemma aux_abs s s' mx ex lx : SFabs (binary_round_aux p m s mx ex lx) = SFabs (binary_round_aux p m s' mx ex lx).
Proof.
  unfold binary_round_aux. destruct (shr_fexp p m mx ex lx) as [r e].
  destruct (shr_fexp p m (round_nearest_even (shr_m r) (loc_of_shr_record r)) e loc_Exact) as [r' e'].
  destruct (shr_m r'); [reflexivity| |reflexivity]. destruct (e' <=? m - p); reflexivity.
Qed.

Lemma round_abs s s' mx ex : SFabs (binary_round p m s mx ex) = SFabs (binary_round p m s' mx ex).
Proof. unfold binary_round. destruct (shl_align mx ex _). apply aux_abs. Qed.

Lemma norm_opp z e s s' : SFabs (binary_normalize p m z e s) = SFabs (binary_normalize p m (- z) e s').
Proof. destruct z; cbn [Z.opp binary_normalize]; [reflexivity|apply round_abs|apply round_abs]. Qed.

Lemma sub_comm a b : SFabs (SFsub p m a b) = SFabs (SFsub p m b a).
Proof.
  destruct a as [[|]|[|]| |sa ma ea], b as [[|]|[|]| |sb mb eb]; try reflexivity.
  cbn [SFsub]. rewrite (Z.min_comm eb ea).
  set (x := cond_Zopp sa _). set (y := cond_Zopp sb _).
  replace (y - x) with (- (x - y)) by lia. apply norm_opp.
Qed.

Lemma div_abs a a' b b' : SFabs a = SFabs a' -> SFabs b = SFabs b' -> SFabs (SFdiv p m a b) = SFabs (SFdiv p m a' b').
Proof.
  intros Ha Hb.
  destruct a as [sa|sa| |sa ma ea], a' as [sa'|sa'| |sa' ma' ea'];
    cbn [SFabs] in Ha; try discriminate Ha; destruct b as [sb|sb| |sb mb eb], b' as [sb'|sb'| |sb' mb' eb'];
    cbn [SFabs] in Hb; try discriminate Hb; try reflexivity.
  assert (ma = ma' /\ ea = ea') as [<- <-] by (split; congruence).
  assert (mb = mb' /\ eb = eb') as [<- <-] by (split; congruence).
  cbn [SFdiv]. destruct (SFdiv_core_binary p m (Z.pos ma) ea (Z.pos mb) eb) as [[q e] l]. apply aux_abs.
Qed.
End Fmt.

Lemma cmp_abs a b :
  match SFcompare (SFabs a) (SFabs b) with
  | None => a = S754_nan \/ b = S754_nan
  | Some Eq => SFabs a = SFabs b
  | Some Lt => SFcompare (SFabs b) (SFabs a) = Some Gt
  | Some Gt => SFcompare (SFabs b) (SFabs a) = Some Lt
  end.
Proof.
  destruct a as [sa|sa| |sa ma ea], b as [sb|sb| |sb mb eb]; cbn [SFabs SFcompare]; try reflexivity; auto.
  rewrite (Z.compare_antisym ea eb). destruct (Z.compare_spec ea eb) as [-> | |]; cbn [CompOpp]; try reflexivity.
  change (Pos.compare_cont Eq ma mb) with (Pos.compare ma mb). change (Pos.compare_cont Eq mb ma) with (Pos.compare mb ma).
  rewrite (Pos.compare_antisym ma mb). destruct (Pos.compare_spec ma mb) as [-> | |]; reflexivity.
Qed.

Lemma eq_sym_cmp a b : SFabs a = SFabs b -> SFcompare (SFabs b) (SFabs a) = SFcompare (SFabs a) (SFabs b).
Proof. intros ->. reflexivity. Qed.

Lemma nan_l p m x : SFsub p m S754_nan x = S754_nan.
Proof. destruct x; reflexivity. Qed.
Lemma nan_r p m x : SFsub p m x S754_nan = S754_nan.
Proof. destruct x; reflexivity. Qed.
Lemma nan_d p m x : SFdiv p m S754_nan x = S754_nan.
Proof. destruct x; reflexivity. Qed.

Lemma almost_sym p m rel abs a b :
  almost_equal spec_float (SFsub p m) (SFdiv p m) SFabs SFltb SFleb rel abs a b =
  almost_equal spec_float (SFsub p m) (SFdiv p m) SFabs SFltb SFleb rel abs b a.
Proof.
  unfold almost_equal. rewrite (sub_comm p m a b). destruct (SFltb (SFabs (SFsub p m b a)) abs); [reflexivity|].
  unfold SFltb. pose proof (cmp_abs a b) as C. destruct (SFcompare (SFabs a) (SFabs b)) as [[| |]|] eqn:E.
  - rewrite (eq_sym_cmp _ _ C), E. rewrite (div_abs p m (SFsub p m b a) (SFsub p m a b) a b); [reflexivity|apply sub_comm|exact C].
  - rewrite C. reflexivity.
  - rewrite C. reflexivity.
  - destruct C as [-> | ->].
    + rewrite nan_l, !nan_r, !nan_d. destruct (SFcompare (SFabs b) (SFabs S754_nan)) as [[| |]|]; reflexivity.
    + rewrite nan_l, !nan_r, !nan_d. destruct (SFcompare (SFabs S754_nan) (SFabs a)) as [[| |]|]; reflexivity.
Qed.

Lemma f_sym f a b : f_equal_ f a b = f_equal_ f b a.
Proof. apply almost_sym. Qed.

(** The tolerances. *)
Lemma eps_ok f : exists rm re am ae,
  narrow f (literal 1 10000) = S754_finite false rm re /\ narrow f (literal 1 1000000) = S754_finite false am ae.
Proof. destruct f; vm_compute; do 4 eexists; split; reflexivity. Qed.

Lemma sub_self p m a : finite a -> SFabs (SFsub p m a a) = S754_zero false.
Proof.
  destruct a as [[|]|s| |s k e]; intros H; try reflexivity; try destruct H.
  cbn [SFsub]. rewrite Z.sub_diag. reflexivity.
Qed.

Lemma f_refl f a : finite a -> f_equal_ f a a = true.
Proof.
  intros H. unfold f_equal_, almost_equal. rewrite sub_self by exact H.
  destruct (eps_ok f) as (rm & re & am & ae & -> & ->). reflexivity.
Qed.

Lemma f_nonfinite f a b : ~ finite a -> f_equal_ f a b = false.
Proof.
  intros H. unfold f_equal_, almost_equal. destruct (eps_ok f) as (rm & re & am & ae & -> & ->).
  destruct a as [sa|sa| |sa ma ea]; cbn [finite] in H; try tauto.
  - destruct b as [sb|sb| |sb mb eb]; try reflexivity. destruct sa, sb; reflexivity.
  - rewrite nan_l, nan_r, !nan_d. destruct (SFltb (SFabs b) (SFabs S754_nan)); reflexivity.
Qed.

(** ** Exact arithmetic *)
Lemma Qle_bool_false a b : Qle_bool a b = false <-> (b < a)%Q.
Proof.
  split; intros H.
  - apply Qnot_le_lt. intros K. apply Qle_bool_iff in K. congruence.
  - destruct (Qle_bool a b) eqn:E; [|reflexivity]. apply Qle_bool_iff in E. exfalso. apply (Qlt_not_le _ _ H E).
Qed.

Lemma Qabs_quot a b r : ~ (b == 0)%Q -> ((Qabs (a / b) <= r) <-> (Qabs a <= r * Qabs b))%Q.
Proof.
  intros N. assert (P : (0 < Qabs b)%Q).
  { destruct (Qlt_le_dec 0 (Qabs b)) as [L | L]; [exact L|]. exfalso. apply N.
    pose proof (Qabs_nonneg b). assert (E : (Qabs b == 0)%Q) by lra.
    destruct (Qlt_le_dec b 0) as [B | B].
    - rewrite Qabs_neg in E by lra. lra.
    - rewrite Qabs_pos in E by lra. exact E. }
  assert (E : (Qabs a == Qabs (a / b) * Qabs b)%Q).
  { rewrite <- Qabs_Qmult. setoid_replace (a / b * b)%Q with a; [reflexivity|]. field. exact N. }
  split; intros H.
  - rewrite E. apply Qmult_le_compat_r; [exact H|apply Qabs_nonneg].
  - rewrite E in H. apply Qmult_lt_0_le_reg_r in H; assumption.
Qed.

Lemma Qabs_zero b : (Qabs b == 0)%Q -> (b == 0)%Q.
Proof.
  intros E. destruct (Qlt_le_dec b 0) as [B | B].
  - rewrite Qabs_neg in E by lra. lra.
  - rewrite Qabs_pos in E by lra. exact E.
Qed.

Lemma q_meaning a b : q_equal a b = true <->
  (Qabs (a - b) < 1 # 1000000 \/ Qabs (a - b) <= (1 # 10000) * Qmin (Qabs a) (Qabs b))%Q.
Proof.
  unfold q_equal, almost_equal. cbn [q_sub q_mag option_map q_ltb].
  assert (Sym : (Qabs (b - a) == Qabs (a - b))%Q).
  { rewrite <- Qabs_opp. setoid_replace (- (b - a))%Q with (a - b)%Q by ring. reflexivity. }
  destruct (Qle_bool (1 # 1000000) (Qabs (a - b))) eqn:E1; cbn [negb].
  2:{ apply Qle_bool_false in E1. tauto. }
  apply Qle_bool_iff in E1.
  destruct (Qle_bool (Qabs a) (Qabs b)) eqn:E2; cbn [negb q_div].
  - apply Qle_bool_iff in E2. rewrite (Q.min_l _ _ E2).
    destruct (Qeq_bool a 0) eqn:E3.
    + apply Qeq_bool_eq in E3. cbn [q_mag option_map q_leb]. split; [discriminate|]. intros [H | H].
      * exfalso. apply (Qlt_not_le _ _ H E1).
      * exfalso. assert (Z : (Qabs a == 0)%Q) by (rewrite E3; reflexivity). rewrite Z in H. lra.
    + apply Qeq_bool_neq in E3. cbn [q_mag option_map q_leb]. rewrite Qle_bool_iff, (Qabs_quot _ _ _ E3), Sym.
      split; [tauto|]. intros [H | H]; [|exact H]. exfalso. apply (Qlt_not_le _ _ H E1).
  - apply Qle_bool_false in E2. rewrite (Q.min_r _ _ (Qlt_le_weak _ _ E2)).
    destruct (Qeq_bool b 0) eqn:E3.
    + apply Qeq_bool_eq in E3. cbn [q_mag option_map q_leb]. split; [discriminate|]. intros [H | H].
      * exfalso. apply (Qlt_not_le _ _ H E1).
      * exfalso. assert (Z : (Qabs b == 0)%Q) by (rewrite E3; reflexivity). rewrite Z in H. lra.
    + apply Qeq_bool_neq in E3. cbn [q_mag option_map q_leb]. rewrite Qle_bool_iff, (Qabs_quot _ _ _ E3).
      split; [tauto|]. intros [H | H]; [|exact H]. exfalso. apply (Qlt_not_le _ _ H E1).
Qed.

(** ** Views *)
Lemma all_from_spec f : forall n i, all_from i n f = true <-> forall j, (i <= j < i + n)%nat -> f j = true.
Proof.
  induction n as [|n IH]; intros i; cbn [all_from].
  - split; [intros _ j Hj; lia|reflexivity].
  - destruct (f i) eqn:E; cbn [negb].
    + rewrite IH. split; intros H j Hj.
      * destruct (Nat.eq_dec j i) as [-> | N]; [exact E|apply H; lia].
      * apply H. lia.
    + split; [discriminate|]. intros H. rewrite (H i) in E by lia. discriminate.
Qed.

Section V.
Variables (A B : Type) (eqb : A -> B -> bool).

Lemma vector_iff n v n' w : equal_vector A B eqb n v n' w = true <->
  n = n' /\ forall i, (i < n)%nat -> eqb (v i) (w i) = true.
Proof.
  unfold equal_vector. destruct (n =? n')%nat eqn:E; cbn [negb].
  - apply Nat.eqb_eq in E. subst. rewrite all_from_spec. split.
    + intros H. split; [reflexivity|]. intros i Hi. apply (H i). lia.
    + intros [_ H] i Hi. apply H. lia.
  - apply Nat.eqb_neq in E. split; [discriminate|tauto].
Qed.

Lemma matrix_iff r c v r' c' w : equal_matrix A B eqb r c v r' c' w = true <->
  r = r' /\ c = c' /\ forall i j, (i < r)%nat -> (j < c)%nat -> eqb (v i j) (w i j) = true.
Proof.
  unfold equal_matrix. destruct (r =? r')%nat eqn:E; cbn [negb orb].
  2:{ apply Nat.eqb_neq in E. split; [discriminate|tauto]. }
  destruct (c =? c')%nat eqn:F; cbn [negb].
  2:{ apply Nat.eqb_neq in F. split; [discriminate|tauto]. }
  apply Nat.eqb_eq in E, F. subst. rewrite all_from_spec. split.
  - intros H. repeat split. intros i j Hi Hj. specialize (H i ltac:(lia)). rewrite all_from_spec in H. apply H. lia.
  - intros (_ & _ & H) i Hi. rewrite all_from_spec. intros j Hj. apply H; lia.
Qed.

Lemma tensor_iff p r c v p' r' c' w : equal_tensor A B eqb p r c v p' r' c' w = true <->
  p = p' /\ r = r' /\ c = c' /\
  forall i j k, (i < p)%nat -> (j < r)%nat -> (k < c)%nat -> eqb (v i j k) (w i j k) = true.
Proof.
  unfold equal_tensor. destruct (p =? p')%nat eqn:D; cbn [negb orb].
  2:{ apply Nat.eqb_neq in D. split; [discriminate|tauto]. }
  destruct (r =? r')%nat eqn:E; cbn [negb orb].
  2:{ apply Nat.eqb_neq in E. split; [discriminate|tauto]. }
  destruct (c =? c')%nat eqn:F; cbn [negb].
  2:{ apply Nat.eqb_neq in F. split; [discriminate|tauto]. }
  apply Nat.eqb_eq in D, E, F. subst. rewrite all_from_spec. split.
  - intros H. repeat split. intros i j k Hi Hj Hk. specialize (H i ltac:(lia)). rewrite all_from_spec in H.
    specialize (H j ltac:(lia)). rewrite all_from_spec in H. apply H. lia.
  - intros (_ & _ & _ & H) i Hi. rewrite all_from_spec. intros j Hj. rewrite all_from_spec. intros k Hk. apply H; lia.
Qed.
End V.

(** ** Mixed types *)
Lemma in_ll_ok x : - 2 ^ 63 <= x < 2 ^ 63 -> in_ll x = Some x.
Proof.
  intros H. unfold in_ll. replace (- 2 ^ 63 <=? x) with true by (symmetry; apply Z.leb_le; lia).
  replace (x <? 2 ^ 63) with true by (symmetry; apply Z.ltb_lt; lia). reflexivity.
Qed.

Lemma ll_loose a b : - 2 ^ 62 <= a < 2 ^ 62 -> - 2 ^ 62 <= b < 2 ^ 62 -> within_factor_two a b ->
  ll_almost_equal 0 0 a b = Some true.
Proof.
  intros Ha Hb W. unfold ll_almost_equal.
  rewrite (in_ll_ok (a - b)) by lia. cbn [bind]. rewrite (in_ll_ok (Z.abs (a - b))) by lia. cbn [bind].
  replace (Z.abs (a - b) <? 0) with false by (symmetry; apply Z.ltb_ge; lia).
  rewrite (in_ll_ok (Z.abs a)) by lia. cbn [bind]. rewrite (in_ll_ok (Z.abs b)) by lia. cbn [bind].
  rewrite (in_ll_ok (b - a)) by lia. cbn [bind].
  assert (Q : forall x y, y <> 0 -> Z.abs x < Z.abs y -> ll_div x y = Some 0).
  { intros x y N L. unfold ll_div. replace (y =? 0) with false by (symmetry; apply Z.eqb_neq; exact N).
    assert (E : Z.quot x y = 0) by (apply Z.quot_small_iff; assumption). rewrite E. reflexivity. }
  destruct (Z.abs b <? Z.abs a) eqn:E.
  - apply Z.ltb_lt in E. rewrite Q; [reflexivity| |]; destruct W; lia.
  - apply Z.ltb_ge in E. rewrite Q; [reflexivity| |]; destruct W; lia.
Qed.

Lemma ll_zero b : in_ll b = Some b -> in_ll (- b) = Some (- b) -> ll_almost_equal 0 0 0 b = None.
Proof.
  intros H K. unfold ll_almost_equal. rewrite Z.sub_0_l, K. cbn [bind].
  assert (A : in_ll (Z.abs b) = Some (Z.abs b)).
  { destruct (Z.abs_eq_or_opp b) as [-> | ->]; assumption. }
  rewrite Z.abs_opp, A. cbn [bind].
  replace (Z.abs b <? 0) with false by (symmetry; apply Z.ltb_ge; lia).
  change (in_ll (Z.abs 0)) with (Some 0). cbn [bind].
  replace (Z.abs b <? 0) with false by (symmetry; apply Z.ltb_ge; lia).
  rewrite Z.sub_0_r, H. reflexivity.
Qed.

Lemma f_meaning f a b : f_equal_ f a b = true <->
  SFltb (SFabs (SFsub (prec f) (emax f) a b)) (narrow f (literal 1 1000000)) = true \/
  SFleb (SFabs (SFdiv (prec f) (emax f) (SFsub (prec f) (emax f) a b) (if SFltb (SFabs b) (SFabs a) then b else a)))
    (narrow f (literal 1 10000)) = true.
Proof.
  unfold f_equal_, almost_equal.
  destruct (SFltb (SFabs (SFsub (prec f) (emax f) a b)) (narrow f (literal 1 1000000))); [tauto|].
  destruct (SFltb (SFabs b) (SFabs a)).
  - split; [tauto|]. intros [H | H]; [discriminate|exact H].
  - rewrite (div_abs _ _ (SFsub (prec f) (emax f) b a) (SFsub (prec f) (emax f) a b) a a); [|apply sub_comm|reflexivity].
    split; [tauto|]. intros [H | H]; [discriminate|exact H].
Qed.

Lemma double_meaning a b : f_equal_ Double a b = true <->
  SFltb (SFabs (SFsub 53 1024 a b)) (S754_finite false 4722366482869645 (-72)) = true \/
  SFleb (SFabs (SFdiv 53 1024 (SFsub 53 1024 a b) (if SFltb (SFabs b) (SFabs a) then b else a)))
    (S754_finite false 7378697629483821 (-66)) = true.
Proof.
  rewrite f_meaning. cbn [prec emax].
  assert (E1 : narrow Double (literal 1 1000000) = S754_finite false 4722366482869645 (-72)) by (vm_compute; reflexivity).
  assert (E2 : narrow Double (literal 1 10000) = S754_finite false 7378697629483821 (-66)) by (vm_compute; reflexivity).
  rewrite E1, E2. tauto.
Qed.

Lemma float_meaning a b : f_equal_ Float a b = true <->
  SFltb (SFabs (SFsub 24 128 a b)) (S754_finite false 8796093 (-43)) = true \/
  SFleb (SFabs (SFdiv 24 128 (SFsub 24 128 a b) (if SFltb (SFabs b) (SFabs a) then b else a)))
    (S754_finite false 13743895 (-37)) = true.
Proof.
  rewrite f_meaning. cbn [prec emax].
  assert (E1 : narrow Float (literal 1 1000000) = S754_finite false 8796093 (-43)) by (vm_compute; reflexivity).
  assert (E2 : narrow Float (literal 1 10000) = S754_finite false 13743895 (-37)) by (vm_compute; reflexivity).
  rewrite E1, E2. tauto.
Qed.
