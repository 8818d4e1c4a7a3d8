(** Lemmas for [CVsip]. *)
From Coq Require Import ZArith List Lia Bool Arith.
From Verif Require Import Base Fir FirProofs Freqswap Conv Matvec FreqswapProofs MatvecProofs Blas BlasProofs CVsip.
Import ListNotations.
Local Open Scope nat_scope.

Lemma u64_id x : (0 <= x < W64)%Z -> u64 x = x.
Proof. intros H. unfold u64. apply Z.mod_small. exact H. Qed.

(** ** The views made are usable *)
Lemma view1_usable v : upward1 v -> usable1 false (view1 (p1 v) 0 (st1 v) (n1 v)).
Proof.
  intros (N & S & B). unfold usable1, view1, blockbind. cbn [cv_len cv_off cv_st cv_blk cb_size cb_admitted].
  split; [exact N|]. split; [|discriminate]. intros i Hi. rewrite u64_id by nia. nia.
Qed.
Lemma const_view1_usable s v : upward1 v -> usable1 false (const_view1 s (p1 v) 0 (st1 v) (n1 v)).
Proof.
  intros U. destruct s; [|apply view1_usable; exact U]. destruct U as (N & _ & _).
  unfold usable1, const_view1, view1_dense, blockbind. cbn [cv_len cv_off cv_st cv_blk cb_size cb_admitted].
  split; [exact N|]. split; [|discriminate]. intros i Hi. lia.
Qed.
Lemma view2_usable v : upward2 v -> usable2 false (whole v).
Proof.
  intros (R & C & S & T & B). unfold usable2, whole, view2, blockbind. cbn [cm_rows cm_cols cm_off cm_sr cm_sc cm_blk cb_size cb_admitted].
  split; [exact R|]. split; [exact C|]. split; [|discriminate]. intros i j Hi Hj. rewrite u64_id by nia. nia.
Qed.
Lemma upward_tr v : upward2 v -> upward2 (tr2 v).
Proof. intros (R & C & S & T & B). unfold upward2, tr2. cbn [nr nc s0 s1]. repeat split; try assumption. lia. Qed.
Lemma upward_op o v : upward2 v -> upward2 (op_view o v).
Proof. intros U. destruct o; cbn [op_view]; try exact U. apply upward_tr; exact U. Qed.
Lemma const_view1_vec s v : (s = true -> st1 v = 1%Z) -> vec (const_view1 s (p1 v) 0 (st1 v) (n1 v)) = blk1 v.
Proof. intros H. destruct s; [|reflexivity]. unfold blk1. rewrite (H eq_refl). reflexivity. Qed.
Lemma const_view1_len s v : cv_len (const_view1 s (p1 v) 0 (st1 v) (n1 v)) = n1 v.
Proof. destruct s; reflexivity. Qed.

Section P.
Context {K : CRing} (conj : K -> K) (L : library K).
Local Open Scope cr_scope.
Add Ring Kring : (r_th K).
Hypothesis D : documented conj L false.

Lemma dot_cv_ok sa sb a b x y m : upward1 a -> upward1 b -> (sa = true -> st1 a = 1%Z) -> (sb = true -> st1 b = 1%Z) ->
  n1 a = n1 b -> holds1 m (blk1 a) x -> holds1 m (blk1 b) y ->
  dot_cv L sa sb a b m = Some (sum (fun i => x i * y i) (n1 a)) /\
  cvjdot_cv L sa sb a b m = Some (sum (fun i => x i * conj (y i)) (n1 a)).
Proof.
  intros Ua Ub Sa Sb E Ha Hb. unfold dot_cv, cvjdot_cv. rewrite assert_true by (apply Nat.eqb_eq; exact E).
  pose proof (const_view1_usable sa a Ua) as Va. pose proof (const_view1_usable sb b Ub) as Vb.
  pose proof (const_view1_vec sa a Sa) as Wa. pose proof (const_view1_vec sb b Sb) as Wb.
  pose proof (const_view1_len sa a) as Na. pose proof (const_view1_len sb b) as Nb.
  split.
  - rewrite (doc_dot _ _ _ D _ _ _ x y Va Vb); [rewrite Na; reflexivity|congruence|rewrite Wa; exact Ha|rewrite Wb; exact Hb].
  - rewrite assert_true by (apply Nat.eqb_eq; exact E). rewrite (doc_jdot _ _ _ D _ _ _ x y Va Vb); [rewrite Na; reflexivity|congruence|rewrite Wa; exact Ha|rewrite Wb; exact Hb].
Qed.

Lemma outer_cv_ok cplx sa sb r alpha a b x y m : upward2 r -> upward1 a -> upward1 b -> (sa = true -> st1 a = 1%Z) -> (sb = true -> st1 b = 1%Z) ->
  n1 a = nr r -> n1 b = nc r -> wf2 m (blk2 r) -> disjoint21 (blk2 r) (blk1 a) -> disjoint21 (blk2 r) (blk1 b) ->
  holds1 m (blk1 a) x -> holds1 m (blk1 b) y ->
  exists m', outer_cv L cplx sa sb r alpha a b m = Some m' /\ only2 (blk2 r) m m' /\
    holds2 m' (blk2 r) (fun i j => alpha * x i * (if cplx then conj (y j) else y j)).
Proof.
  intros Ur Ua Ub Sa Sb E1 E2 W Da Db Ha Hb. unfold outer_cv. rewrite !assert_true by (apply Nat.eqb_eq; assumption).
  rewrite <- (const_view1_vec sa a Sa) in Da, Ha. rewrite <- (const_view1_vec sb b Sb) in Db, Hb.
  refine (doc_outer _ _ _ D cplx alpha _ _ (whole r) m x y (const_view1_usable sa a Ua) (const_view1_usable sb b Ub) (view2_usable r Ur) _ _ W Da Db Ha Hb);
    rewrite const_view1_len; assumption.
Qed.

Lemma mm_cv_ok c a b x y m : upward2 c -> upward2 a -> upward2 b -> nc a = nr b -> nr c = nr a -> nc c = nc b ->
  wf2 m (blk2 c) -> disjoint2 (blk2 c) (blk2 a) -> disjoint2 (blk2 c) (blk2 b) -> holds2 m (blk2 a) x -> holds2 m (blk2 b) y ->
  exists m', mm_cv L c a b m = Some m' /\ only2 (blk2 c) m m' /\ holds2 m' (blk2 c) (fun i j => sum (fun k => x i k * y k j) (nc a)).
Proof.
  intros Uc Ua Ub E1 E2 E3 W Da Db Ha Hb.
  exact (doc_mprod _ _ _ D (whole a) (whole b) (whole c) m x y (view2_usable a Ua) (view2_usable b Ub) (view2_usable c Uc) E1 E2 E3 W Da Db Ha Hb).
Qed.

Lemma gemp_cv_ok c alpha a b beta x y z m : upward2 c -> upward2 a -> upward2 b -> nc a = nr b -> nr c = nr a -> nc c = nc b ->
  wf2 m (blk2 c) -> disjoint2 (blk2 c) (blk2 a) -> disjoint2 (blk2 c) (blk2 b) -> holds2 m (blk2 a) x -> holds2 m (blk2 b) y -> holds2 m (blk2 c) z ->
  exists m', gemp_cv L c alpha a b beta m = Some m' /\ only2 (blk2 c) m m' /\ holds2 m' (blk2 c) (fun i j => alpha * sum (fun k => x i k * y k j) (nc a) + beta * z i j).
Proof.
  intros Uc Ua Ub E1 E2 E3 W Da Db Ha Hb Hc.
  exact (doc_gemp _ _ _ D alpha (whole a) (whole b) beta (whole c) m x y z (view2_usable a Ua) (view2_usable b Ub) (view2_usable c Uc) E1 E2 E3 W Da Db Ha Hb Hc).
Qed.

Lemma mv_cv_ok s r a b x y m : upward1 r -> upward2 a -> upward1 b -> (s = true -> st1 b = 1%Z) -> nc a = n1 b -> n1 r = nr a ->
  wf1 m (blk1 r) -> disjoint21 (blk2 a) (blk1 r) -> disjoint1 (blk1 r) (blk1 b) -> holds2 m (blk2 a) x -> holds1 m (blk1 b) y ->
  exists m', mv_cv L s r a b m = Some m' /\ only1 (blk1 r) m m' /\ holds1 m' (blk1 r) (fun i => sum (fun k => x i k * y k) (nc a)).
Proof.
  intros Ur Ua Ub S E1 E2 W Da Db Ha Hb. unfold mv_cv. rewrite assert_true by (apply Nat.eqb_eq; congruence).
  rewrite <- (const_view1_vec s b S) in Db, Hb.
  refine (doc_mvprod _ _ _ D (whole a) _ (view1 (p1 r) 0 (st1 r) (n1 r)) m x y (view2_usable a Ua) (const_view1_usable s b Ub) (view1_usable r Ur) _ _ W Da Db Ha Hb).
  - rewrite const_view1_len. exact E1.
  - symmetry. exact E2.
Qed.

Lemma tr_holds (m : mem K) v x : holds2 m (blk2 v) x -> holds2 m (blk2 (tr2 v)) (fun i j => x j i).
Proof. intros H i j Hi Hj. cbn [rows cols blk2 tr2 nr nc] in *. rewrite <- (H j i) by assumption. cbn [addr2 blk2 tr2 p2 s0 s1]. f_equal. lia. Qed.
Lemma tr_disj v r : disjoint21 (blk2 v) r -> disjoint21 (blk2 (tr2 v)) r.
Proof. intros H i j k Hi Hj Hk. cbn [rows cols blk2 tr2 nr nc] in *. intros e. apply (H j i k Hj Hi Hk). rewrite <- e. cbn [addr2 blk2 tr2 p2 s0 s1]. lia. Qed.

Lemma sum_ext' (f g : nat -> K) n : (forall i, (i < n)%nat -> f i = g i) -> sum f n = sum g n.
Proof. induction n as [|n IH]; intros H; cbn [sum]; [reflexivity|]. rewrite IH by (intros; apply H; lia). rewrite H by lia. reflexivity. Qed.

Lemma vm_cv_ok s r a b x y m : upward1 r -> upward1 a -> upward2 b -> (s = true -> st1 a = 1%Z) -> n1 a = nr b -> n1 r = nc b ->
  wf1 m (blk1 r) -> disjoint1 (blk1 r) (blk1 a) -> disjoint21 (blk2 b) (blk1 r) -> holds1 m (blk1 a) x -> holds2 m (blk2 b) y ->
  exists m', vm_cv L s r a b m = Some m' /\ only1 (blk1 r) m m' /\ holds1 m' (blk1 r) (fun j => sum (fun k => x k * y k j) (n1 a)).
Proof.
  intros Ur Ua Ub S E1 E2 W Da Db Ha Hb.
  destruct (mv_cv_ok s r (tr2 b) a (fun i j => y j i) x m) as (m' & E & O & H); try assumption.
  - apply upward_tr; exact Ub.
  - cbn [nc tr2]. congruence.
  - apply tr_disj; exact Db.
  - apply tr_holds; exact Hb.
  - exists m'. split; [exact E|]. split; [exact O|]. intros j Hj. rewrite (H j Hj). cbn [nc tr2]. rewrite E1. f_equal. apply sum_ext'. intros. ring.
Qed.

(** ** Dispatch *)
Lemma prod_mm_c_eq ct cv r a b m : (ct && mm_rt a b = true \/ cv = false) -> prod_mm_c conj L ct cv r a b m = prod_mm_d conj ct r a b m.
Proof. intros H. unfold prod_mm_c, prod_mm_d. repeat (destruct (Nat.eqb _ _); [|reflexivity]). destruct (ct && mm_rt a b); [reflexivity|]. destruct H as [H | ->]; [discriminate|reflexivity]. Qed.
Lemma prod_mm_c_ok ct cv r a b x y m : nc a = nr b -> nr r = nr a -> nc r = nc b ->
  (ct = true -> unit_stride r /\ blas_layout r /\ blas_layout a /\ blas_layout b) ->
  (cv = true -> upward2 r /\ upward2 a /\ upward2 b) ->
  wf2 m (blk2 r) -> disjoint2 (blk2 r) (blk2 a) -> disjoint2 (blk2 r) (blk2 b) -> holds2 m (blk2 a) x -> holds2 m (blk2 b) y ->
  exists m', prod_mm_c conj L ct cv r a b m = Some m' /\ only2 (blk2 r) m m' /\ holds2 m' (blk2 r) (fun i j => sum (fun k => x i k * y k j) (nc a)).
Proof.
  intros E1 E2 E3 B V W Da Db Ha Hb. destruct (ct && mm_rt a b) eqn:Q.
  - rewrite prod_mm_c_eq by auto. apply prod_mm_d_ok; assumption.
  - destruct cv; [|rewrite prod_mm_c_eq by auto; apply prod_mm_d_ok; assumption].
    unfold prod_mm_c. rewrite !assert_true by (apply Nat.eqb_eq; assumption). rewrite Q. destruct (V eq_refl) as (Ur & Ua & Ub). apply mm_cv_ok; assumption.
Qed.
Lemma prod_mv_c_eq ct cv s r a b m : (ct && mv_rt a b = true \/ cv = false) -> prod_mv_c L ct cv s r a b m = prod_mv_d ct r a b m.
Proof. intros H. unfold prod_mv_c, prod_mv_d. repeat (destruct (Nat.eqb _ _); [|reflexivity]). destruct (ct && mv_rt a b); [reflexivity|]. destruct H as [H | ->]; [discriminate|reflexivity]. Qed.
Lemma prod_mv_c_ok ct cv s r a b x y m : nc a = n1 b -> n1 r = nr a ->
  (ct = true -> (0 < st1 r)%Z /\ (0 < st1 b)%Z /\ blas_layout a /\ (row_order a = true -> s0 a = Z.of_nat (nc a))) ->
  (cv = true -> upward1 r /\ upward2 a /\ upward1 b /\ (s = true -> st1 b = 1%Z)) ->
  wf1 m (blk1 r) -> disjoint21 (blk2 a) (blk1 r) -> disjoint1 (blk1 r) (blk1 b) -> holds2 m (blk2 a) x -> holds1 m (blk1 b) y ->
  exists m', prod_mv_c L ct cv s r a b m = Some m' /\ only1 (blk1 r) m m' /\ holds1 m' (blk1 r) (fun i => sum (fun k => x i k * y k) (nc a)).
Proof.
  intros E1 E2 B V W Da Db Ha Hb. destruct (ct && mv_rt a b) eqn:Q.
  - rewrite prod_mv_c_eq by auto. apply (prod_mv_d_ok conj); assumption.
  - destruct cv; [|rewrite prod_mv_c_eq by auto; apply (prod_mv_d_ok conj); assumption].
    unfold prod_mv_c. rewrite !assert_true by (apply Nat.eqb_eq; assumption). rewrite Q. destruct (V eq_refl) as (Ur & Ua & Ub & S). apply mv_cv_ok; assumption.
Qed.
Lemma prod_vm_c_eq ct cv s r a b m : (ct && vm_rt a b = true \/ cv = false) -> prod_vm_c L ct cv s r a b m = prod_vm_d ct r a b m.
Proof. intros H. unfold prod_vm_c, prod_vm_d. repeat (destruct (Nat.eqb _ _); [|reflexivity]). destruct (ct && vm_rt a b); [reflexivity|]. destruct H as [H | ->]; [discriminate|reflexivity]. Qed.
Lemma prod_vm_c_ok ct cv s r a b x y m : n1 a = nr b -> n1 r = nc b ->
  (ct = true -> (0 < st1 r)%Z /\ (0 < st1 a)%Z /\ blas_layout b /\ (row_order b = false -> s1 b = Z.of_nat (nr b))) ->
  (cv = true -> upward1 r /\ upward1 a /\ upward2 b /\ (s = true -> st1 a = 1%Z)) ->
  wf1 m (blk1 r) -> disjoint1 (blk1 r) (blk1 a) -> disjoint21 (blk2 b) (blk1 r) -> holds1 m (blk1 a) x -> holds2 m (blk2 b) y ->
  exists m', prod_vm_c L ct cv s r a b m = Some m' /\ only1 (blk1 r) m m' /\ holds1 m' (blk1 r) (fun j => sum (fun k => x k * y k j) (n1 a)).
Proof.
  intros E1 E2 B V W Da Db Ha Hb. destruct (ct && vm_rt a b) eqn:Q.
  - rewrite prod_vm_c_eq by auto. apply (prod_vm_d_ok conj); assumption.
  - destruct cv; [|rewrite prod_vm_c_eq by auto; apply (prod_vm_d_ok conj); assumption].
    unfold prod_vm_c. rewrite !assert_true by (apply Nat.eqb_eq; assumption). rewrite Q. destruct (V eq_refl) as (Ur & Ua & Ub & S). apply vm_cv_ok; assumption.
Qed.
Lemma gemp_c_ok ct cv opA opB alpha A B beta C a b c m :
  op_rows opA (blk2 A) = nr C -> op_cols opB (blk2 B) = nc C -> op_cols opA (blk2 A) = op_rows opB (blk2 B) ->
  (ct = true -> unit_stride C /\ blas_layout C /\ blas_layout A /\ blas_layout B) ->
  (cv = true -> upward2 C /\ upward2 A /\ upward2 B) ->
  wf2 m (blk2 C) -> disjoint2 (blk2 C) (blk2 A) -> disjoint2 (blk2 C) (blk2 B) -> holds2 m (blk2 A) a -> holds2 m (blk2 B) b -> holds2 m (blk2 C) c ->
  exists m', gemp_c conj L ct cv opA opB alpha A B beta C m = Some m' /\ only2 (blk2 C) m m' /\
    holds2 m' (blk2 C) (fun i j => alpha * sum (fun k => op_elem conj opA a i k * op_elem conj opB b k j) (op_cols opA (blk2 A)) + beta * c i j).
Proof.
  intros E1 E2 E3 Bl V W Da Db Ha Hb Hc. unfold gemp_c. cbv zeta.
  destruct (ct && (negb (is_conj opA) && negb (is_conj opB)) && mm_rt (op_view opA A) (op_view opB B)) eqn:Q.
  - destruct (gemp_d_ok conj ct opA opB alpha A B beta C a b c m) as (m' & E & R); try assumption. exists m'. split; [|exact R].
    unfold gemp_d in E. cbv zeta in E. rewrite andb_assoc in Q. rewrite Q in E. exact E.
  - destruct (cv && (negb (is_conj opA) && negb (is_conj opB))) eqn:Q2; [|apply gemp_ok; assumption].
    rewrite !andb_true_iff, !negb_true_iff in Q2. destruct Q2 as [-> [CA CB]]. destruct (V eq_refl) as (Uc & Ua & Ub).
    destruct (op_view_size opA A CA) as [SA1 SA2]. destruct (op_view_size opB B CB) as [SB1 SB2].
    destruct (gemp_cv_ok C alpha (op_view opA A) (op_view opB B) beta (op_elem conj opA a) (op_elem conj opB b) c m) as (m' & E & O & H); try assumption; try congruence; try (apply upward_op; assumption); try (apply op_view_disjoint; assumption); try (apply op_view_holds; assumption).
    exists m'. split; [exact E|]. split; [exact O|]. rewrite <- SA2. exact H.
Qed.
Lemma outer_c_ok ct cv cplx sa sb r alpha a b x y m :
  (forall u w, conj (u * w) = conj u * conj w) -> (forall u, conj (conj u) = u) ->
  n1 a = nr r -> n1 b = nc r -> (0 < nr r)%nat -> (0 < nc r)%nat -> dense2 r ->
  (cv = true -> upward2 r /\ upward1 a /\ upward1 b /\ (sa = true -> st1 a = 1%Z) /\ (sb = true -> st1 b = 1%Z)) ->
  wf2 m (blk2 r) -> disjoint21 (blk2 r) (blk1 a) -> disjoint21 (blk2 r) (blk1 b) -> holds1 m (blk1 a) x -> holds1 m (blk1 b) y ->
  exists m', outer_c conj L ct cv cplx sa sb r alpha a b m = Some m' /\ only2 (blk2 r) m m' /\
    holds2 m' (blk2 r) (fun i j => alpha * x i * (if cplx then conj (y j) else y j)).
Proof.
  intros C1 C2 E1 E2 P1 P2 Dn V W Da Db Ha Hb.
  assert (Q : cv = true /\ ct && outer_rt a b = false \/ outer_c conj L ct cv cplx sa sb r alpha a b m = outer_d conj ct cplx r alpha a b m).
  { unfold outer_c, outer_d. destruct (ct && outer_rt a b); [right; reflexivity|]. destruct cv; [left; auto|right; reflexivity]. }
  destruct Q as [[-> Q]|Q].
  - unfold outer_c. rewrite Q. destruct (V eq_refl) as (Ur & Ua & Ub & Sa & Sb). apply outer_cv_ok; assumption.
  - rewrite Q. apply outer_d_ok; assumption.
Qed.
End P.

(** ** The reference library keeps the promises *)
Section R.
Context {K : CRing} (conj : K -> K) (strict : bool).
Local Open Scope cr_scope.
Add Ring Kring2 : (r_th K).

Lemma ok1T v : usable1 strict v -> ok1 strict v = true.
Proof.
  intros (N & I & A). unfold ok1. rewrite !andb_true_iff. split; [split|].
  - apply Nat.ltb_lt. exact N.
  - apply forallb_forall. intros i Hi. apply in_seq in Hi. specialize (I i ltac:(lia)). rewrite andb_true_iff, Z.leb_le, Z.ltb_lt. lia.
  - destruct strict; [|reflexivity]. rewrite A by reflexivity. reflexivity.
Qed.
Lemma ok2T v : usable2 strict v -> ok2 strict v = true.
Proof.
  intros (N & M & I & A). unfold ok2. rewrite !andb_true_iff. split; [split; [split|]|].
  - apply Nat.ltb_lt. exact N.
  - apply Nat.ltb_lt. exact M.
  - apply forallb_forall. intros i Hi. apply in_seq in Hi. apply forallb_forall. intros j Hj. apply in_seq in Hj.
    specialize (I i j ltac:(lia) ltac:(lia)). cbv zeta. rewrite andb_true_iff, Z.leb_le, Z.ltb_lt. lia.
  - destruct strict; [|reflexivity]. rewrite A by reflexivity. reflexivity.
Qed.

Lemma reference_documented : documented conj (reference conj strict) strict.
Proof.
  constructor.
  - intros a b m x y Ua Ub E Ha Hb. cbn [vdot reference]. rewrite (ok1T a Ua), (ok1T b Ub). cbn [andb].
    rewrite (dot_eq conj (plain1 (vec a)) (plain1 (vec b)) x y m); [reflexivity|exact E| |]; intros i Hi; cbn [plain1 aget1 alen] in *; rewrite get1_ok by exact Hi; [apply Ha|apply Hb]; exact Hi.
  - intros a b m x y Ua Ub E Ha Hb. cbn [cvjdot reference]. rewrite (ok1T a Ua), (ok1T b Ub). cbn [andb]. unfold Matvec.cvjdot.
    rewrite (dot_eq conj (plain1 (vec a)) (conj1 conj (plain1 (vec b))) x (fun i => conj (y i)) m); [reflexivity|exact E| |]; intros i Hi; cbn [conj1 plain1 aget1 alen] in *; rewrite get1_ok by exact Hi.
    + apply Ha; exact Hi.
    + rewrite (Hb i Hi). reflexivity.
  - intros cplx alpha a b r m x y Ua Ub Ur E1 E2 W Da Db Ha Hb. cbn [vouter reference]. rewrite (ok1T a Ua), (ok1T b Ub), (ok2T r Ur). cbn [andb].
    apply outer_ok; assumption.
  - intros alpha a b beta c m x y z Ua Ub Uc E1 E2 E3 W Da Db Ha Hb Hc. cbn [gemp reference]. rewrite (ok2T a Ua), (ok2T b Ub), (ok2T c Uc). cbn [andb].
    exact (gemp_ok conj mat_ntrans mat_ntrans alpha (mat a) (mat b) beta (mat c) x y z m (eq_sym E2) (eq_sym E3) E1 W Da Db Ha Hb Hc).
  - intros a b c m x y Ua Ub Uc E1 E2 E3 W Da Db Ha Hb. cbn [mprod reference]. rewrite (ok2T a Ua), (ok2T b Ub), (ok2T c Uc). cbn [andb].
    destruct (prod_mm_ok conj false (mat c) (plain2 (mat a)) (plain2 (mat b)) x y m) as (m' & E & O & H); try assumption; try (apply r2_plain; assumption).
    exists m'. split; [|split; [exact O|exact H]]. unfold assign_prod in E. cbn [arows acols plain2 rows cols mat] in E. rewrite !assert_true in E by (apply Nat.eqb_eq; congruence). exact E.
  - intros a x y m u w Ua Ux Uy E1 E2 W Da Db Ha Hb. cbn [mvprod reference]. rewrite (ok2T a Ua), (ok1T x Ux), (ok1T y Uy). cbn [andb].
    destruct (prod_mv_ok conj (vec y) (mat a) (vec x) u w m) as (m' & E & O & H); try assumption. { symmetry. exact E2. }
    exists m'. split; [|split; [exact O|exact H]]. unfold prod_matvec in E. cbn [rows cols mat len vec] in E. rewrite !assert_true in E by (apply Nat.eqb_eq; congruence). exact E.
Qed.
End R.
