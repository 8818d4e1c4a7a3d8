(** Proofs about products through BLAS. *)
From Coq Require Import ZArith List Lia Bool Arith.
From Verif Require Import Base Fir FirProofs Freqswap FreqswapProofs Conv ConvProofs Matvec MatvecProofs Blas.
Import ListNotations.
Local Open Scope nat_scope.

Section P.
Context {K : CRing} (conj : K -> K).
Local Open Scope cr_scope.
Add Ring Kring : (r_th K).
Implicit Types m : mem K.

(** [C] has the elements of [r], transposed if [t]. *)
Definition same_cells (t : bool) (C r : block2) : Prop :=
  rows r = (if t then cols C else rows C) /\ cols r = (if t then rows C else cols C) /\
  forall i j, (i < rows r)%nat -> (j < cols r)%nat -> addr2 r i j = (if t then addr2 C j i else addr2 C i j).
Lemma cells_wf t C r m : same_cells t C r -> wf2 m r -> wf2 m C.
Proof.
  intros (E1 & E2 & E3) [A I]. destruct t; split.
  - intros i j Hi Hj. rewrite <- E3 by lia. apply A; lia.
  - intros i j i' j' Hi Hj Hi' Hj' e. rewrite <- !E3 in e by lia. apply I in e; lia.
  - intros i j Hi Hj. rewrite <- E3 by lia. apply A; lia.
  - intros i j i' j' Hi Hj Hi' Hj' e. rewrite <- !E3 in e by lia. apply I in e; lia.
Qed.
Lemma cells_off t C r m m' : same_cells t C r -> off2 C m m' -> off2 r m m'.
Proof.
  intros (E1 & E2 & E3) [O A]. split; [|exact A]. intros a Ha. apply O. intros i j Hi Hj. destruct t.
  - rewrite <- E3 by lia. apply Ha; lia.
  - rewrite <- E3 by lia. apply Ha; lia.
Qed.
Lemma cells_holds t C r m v : same_cells t C r -> holds2 m C v -> holds2 m r (fun i j => if t then v j i else v i j).
Proof. intros (E1 & E2 & E3) H i j Hi Hj. rewrite E3 by assumption. destruct t; apply H; lia. Qed.
Lemma cells_holds' t C r m v : same_cells t C r -> holds2 m r v -> holds2 m C (fun i j => if t then v j i else v i j).
Proof. intros (E1 & E2 & E3) H i j Hi Hj. destruct t; rewrite <- E3 by lia; apply H; lia. Qed.

Lemma ld_okT ld M : (Z.max 1 (Z.of_nat M) <= ld)%Z -> ld_ok ld M = true.
Proof. intros H. apply Z.leb_le. exact H. Qed.

(** xGEMM. *)
Definition aelem (t : bool) (p ld : Z) (i k : nat) : Z := (if t then p + Z.of_nat k + Z.of_nat i * ld else p + Z.of_nat i + Z.of_nat k * ld)%Z.
Lemma gemm_ok (ta tb : bool) (M N L : nat) alpha a lda b ldb beta c ldc m X Y Zc :
  ld_ok lda (if ta then L else M) = true -> ld_ok ldb (if tb then N else L) = true -> ld_ok ldc M = true ->
  let C := colmajor c ldc M N in wf2 m C ->
  (forall m1 i k, off2 C m m1 -> (i < M)%nat -> (k < L)%nat -> m1 (aelem ta a lda i k) = Some (X i k)) ->
  (forall m1 k j, off2 C m m1 -> (k < L)%nat -> (j < N)%nat -> m1 (aelem tb b ldb k j) = Some (Y k j)) ->
  (beta <> None -> holds2 m C Zc) ->
  exists m', gemm ta tb M N L alpha a lda b ldb beta c ldc m = Some m' /\ off2 C m m' /\
    holds2 m' C (fun i j => alpha * sum (fun k => X i k * Y k j) L + match beta with None => 0 | Some be => be * Zc i j end).
Proof.
  intros H1 H2 H3 C W HX HY HZ. unfold gemm. rewrite !assert_true by assumption. cbv zeta. fold C.
  match goal with |- exists m', loop (fun i m => loop (fun j m => @?G i j m) _ _ m) _ _ _ = _ /\ _ /\ holds2 _ _ ?V => destruct (nest_up conj C m V G W) as (m' & E & O & H) end.
  - intros i j m1 Hi Hj O1 F. cbv beta. rewrite (acc_loop _ (fun k => X i k * Y k j)).
    + cbn [bind]. destruct beta as [be|].
      * rewrite get2_ok by assumption. rewrite F, (HZ ltac:(discriminate) i j) by assumption. cbn [bind]. f_equal. ring.
      * f_equal. ring.
    + intros k s Hk. specialize (HX m1 i k O1 Hi Hk). specialize (HY m1 k j O1 Hk Hj). unfold aelem in *. unfold mload. rewrite HX. cbn [bind]. rewrite HY. reflexivity.
  - exists m'. split; [exact E|]. split; assumption.
Qed.
(** xGEMV. *)
Lemma gemv_ok M N alpha a lda x incx y incy m X Y (r : block1) :
  ld_ok lda M = true -> (0 < incx)%Z -> (0 < incy)%Z -> len r = M -> (forall i, (i < M)%nat -> addr1 r i = (y + Z.of_nat i * incy)%Z) -> wf1 m r ->
  (forall m1 i k, off1 r m m1 -> (i < M)%nat -> (k < N)%nat -> m1 (a + Z.of_nat i + Z.of_nat k * lda)%Z = Some (X i k)) ->
  (forall m1 k, off1 r m m1 -> (k < N)%nat -> m1 (x + Z.of_nat k * incx)%Z = Some (Y k)) ->
  exists m', gemv M N alpha a lda x incx y incy m = Some m' /\ off1 r m m' /\
    holds1 m' r (fun i => alpha * sum (fun k => X i k * Y k) N).
Proof.
  intros H1 H2 H3 Hl Hr W HX HY. unfold gemv, inc_ok. rewrite !assert_true; try assumption.
  2,3: apply Bool.negb_true_iff; apply Z.eqb_neq; lia. cbv zeta.
  match goal with |- exists m', loop ?G 0 _ _ = _ /\ _ /\ holds1 _ _ ?V => destruct (writes1 r M V G m W ltac:(lia)) as (m' & E & O & H) end.
  - intros i m1 Hi O1. rewrite (acc_loop _ (fun k => X i k * Y k)).
    + cbn [bind]. unfold put1. cbn [len addr1]. unfold varg_at. destruct (Z.ltb_spec incy 0); [lia|]. rewrite Hr, Hl by assumption. replace (0 + sum (fun k => X i k * Y k) N) with (sum (fun k => X i k * Y k) N) by ring. reflexivity.
    + intros k s Hk. unfold mload. rewrite (HX m1 i k O1 Hi Hk). cbn [bind]. unfold varg_at. destruct (Z.ltb_spec incx 0); [lia|]. rewrite (HY m1 k O1 Hk). reflexivity.
  - exists m'. split; [exact E|]. split; [exact O|]. intros i Hi. rewrite H by exact Hi. destruct (Nat.ltb_spec i M); [reflexivity|lia].
Qed.

(** Reading an operand element during the writes to the destination. *)
Lemma read_off2 r m m1 (b : block2) x i j ad : disjoint2 r b -> holds2 m b x -> off2 r m m1 -> (i < rows b)%nat -> (j < cols b)%nat -> ad = addr2 b i j -> m1 ad = Some (x i j).
Proof. intros D H O Hi Hj ->. pose proof (r2_plain r m b x D H m1 i j Hi Hj O) as Q. cbn in Q. rewrite get2_ok in Q by assumption. exact Q. Qed.

Definition unit2 (v : v2) : Prop := (if row_order v then s1 v else s0 v) = 1%Z.
(** A view as an argument of xGEMM, in the order [o]. *)
Lemma arg_elem v i k : unit_stride v -> aelem (row_order v) (p2 v) (lead v) i k = addr2 (blk2 v) i k.
Proof. unfold unit_stride, aelem, lead, blk2. cbn [addr2]. destruct (row_order v); intros E; rewrite E; ring. Qed.
Lemma arg_elem_t v i k : unit_stride v -> aelem (negb (row_order v)) (p2 v) (lead v) k i = addr2 (blk2 v) i k.
Proof. unfold unit_stride, aelem, lead, blk2. cbn [addr2]. destruct (row_order v); intros E; cbn [negb]; rewrite E; ring. Qed.

Lemma mm_ok r alpha a b beta x y z m :
  nr r = nr a -> nc r = nc b -> nc a = nr b -> unit_stride r -> unit_stride a -> unit_stride b -> blas_layout r -> blas_layout a -> blas_layout b ->
  wf2 m (blk2 r) -> disjoint2 (blk2 r) (blk2 a) -> disjoint2 (blk2 r) (blk2 b) -> holds2 m (blk2 a) x -> holds2 m (blk2 b) y -> (beta <> None -> holds2 m (blk2 r) z) ->
  exists m', mm_blas r alpha a b beta m = Some m' /\ only2 (blk2 r) m m' /\
    holds2 m' (blk2 r) (fun i j => alpha * sum (fun k => x i k * y k j) (nc a) + match beta with None => 0 | Some be => be * z i j end).
Proof.
  intros E1 E2 E3 Ur Ua Ub Lr La Lb W Da Db Ha Hb Hz. unfold mm_blas. destruct (row_order r) eqn:Or.
  - assert (SC : same_cells true (colmajor (p2 r) (s0 r) (nc b) (nr a)) (blk2 r)).
    { split; [exact E1|]. split; [exact E2|]. intros i j Hi Hj. unfold unit_stride in Ur. rewrite Or in Ur. cbn [addr2 colmajor blk2]. rewrite Ur. ring. }
    destruct (gemm_ok (negb (row_order b)) (negb (row_order a)) (nc b) (nr a) (nc a) alpha (p2 b) (lead b) (p2 a) (lead a) beta (p2 r) (s0 r) m
       (fun j k => y k j) (fun k i => x i k) (fun j i => z i j)) as (m' & E & O & H).
    + apply ld_okT. unfold blas_layout in Lb. destruct (row_order b); cbn [negb]; rewrite ?E3; exact Lb.
    + apply ld_okT. unfold blas_layout in La. destruct (row_order a); cbn [negb]; exact La.
    + apply ld_okT. unfold blas_layout, lead in Lr. rewrite Or, E2 in Lr. exact Lr.
    + apply (cells_wf _ _ _ _ SC W).
    + intros m1 j k O1 Hj Hk. apply (cells_off _ _ _ _ _ SC) in O1. rewrite arg_elem_t by exact Ub. apply (read_off2 (blk2 r) m m1 (blk2 b) y k j); auto; cbn; lia.
    + intros m1 k i O1 Hk Hi. apply (cells_off _ _ _ _ _ SC) in O1. rewrite arg_elem_t by exact Ua. apply (read_off2 (blk2 r) m m1 (blk2 a) x i k); auto; cbn; lia.
    + intros B. apply (cells_holds' _ _ _ _ _ SC). apply Hz. exact B.
    + exists m'. split; [exact E|]. split; [apply only2_off; apply (cells_off _ _ _ _ _ SC); exact O|].
      intros i j Hi Hj. pose proof (cells_holds _ _ _ _ _ SC H i j Hi Hj) as Q. cbv beta iota in Q. rewrite Q. f_equal. f_equal. f_equal. apply sum_ext. intros k _. ring.
  - assert (SC : same_cells false (colmajor (p2 r) (s1 r) (nr a) (nc b)) (blk2 r)).
    { split; [exact E1|]. split; [exact E2|]. intros i j Hi Hj. unfold unit_stride in Ur. rewrite Or in Ur. cbn [addr2 colmajor blk2]. rewrite Ur. ring. }
    destruct (gemm_ok (row_order a) (row_order b) (nr a) (nc b) (nc a) alpha (p2 a) (lead a) (p2 b) (lead b) beta (p2 r) (s1 r) m x y z) as (m' & E & O & H).
    + apply ld_okT. unfold blas_layout in La. destruct (row_order a); exact La.
    + apply ld_okT. unfold blas_layout in Lb. destruct (row_order b); rewrite ?E3; exact Lb.
    + apply ld_okT. unfold blas_layout, lead in Lr. rewrite Or, E1 in Lr. exact Lr.
    + apply (cells_wf _ _ _ _ SC W).
    + intros m1 i k O1 Hi Hk. apply (cells_off _ _ _ _ _ SC) in O1. rewrite arg_elem by exact Ua. apply (read_off2 (blk2 r) m m1 (blk2 a) x i k); auto; cbn; lia.
    + intros m1 k j O1 Hk Hj. apply (cells_off _ _ _ _ _ SC) in O1. rewrite arg_elem by exact Ub. apply (read_off2 (blk2 r) m m1 (blk2 b) y k j); auto; cbn; lia.
    + intros B. apply (cells_holds' _ _ _ _ _ SC). apply Hz. exact B.
    + exists m'. split; [exact E|]. split; [apply only2_off; apply (cells_off _ _ _ _ _ SC); exact O|].
      intros i j Hi Hj. pose proof (cells_holds _ _ _ _ _ SC H i j Hi Hj) as Q. exact Q.
Qed.
Lemma mm_rt_unit a b : mm_rt a b = true -> unit_stride a /\ unit_stride b.
Proof. unfold mm_rt, unit_stride. rewrite andb_true_iff, !Z.eqb_eq. auto. Qed.

Lemma prod_mm_d_ok ct r a b x y m : nc a = nr b -> nr r = nr a -> nc r = nc b ->
  (ct = true -> unit_stride r /\ blas_layout r /\ blas_layout a /\ blas_layout b) ->
  wf2 m (blk2 r) -> disjoint2 (blk2 r) (blk2 a) -> disjoint2 (blk2 r) (blk2 b) -> holds2 m (blk2 a) x -> holds2 m (blk2 b) y ->
  exists m', prod_mm_d conj ct r a b m = Some m' /\ only2 (blk2 r) m m' /\ holds2 m' (blk2 r) (fun i j => sum (fun k => x i k * y k j) (nc a)).
Proof.
  intros E1 E2 E3 L W Da Db Ha Hb. unfold prod_mm_d. rewrite !assert_true by (apply Nat.eqb_eq; assumption).
  destruct (ct && mm_rt a b) eqn:B.
  - apply andb_true_iff in B. destruct B as [-> B]. destruct (mm_rt_unit a b B) as [Ua Ub]. destruct (L eq_refl) as (Ur & Lr & La & Lb).
    destruct (mm_ok r 1 a b None x y (fun _ _ => 0) m) as (m' & E & O & H); try assumption. { intros []; reflexivity. }
    exists m'. split; [exact E|]. split; [exact O|]. intros i j Hi Hj. rewrite (H i j Hi Hj). f_equal. ring.
  - destruct (prod_mm_ok conj false (blk2 r) (plain2 (blk2 a)) (plain2 (blk2 b)) x y m) as (m' & E & O & H); try assumption; try (apply r2_plain; assumption).
    exists m'. split; [|split; [exact O|exact H]]. unfold assign_prod in E. cbn [arows acols plain2 rows cols blk2] in E. rewrite !assert_true in E by (apply Nat.eqb_eq; congruence). exact E.
Qed.

(** gemp. *)
Lemma op_view_holds o v x m : is_conj o = false -> holds2 m (blk2 v) x -> holds2 m (blk2 (op_view o v)) (op_elem conj o x).
Proof.
  intros C H. destruct o; try discriminate; cbn [op_view op_elem]; [exact H|]. intros i j Hi Hj. cbn in *. rewrite <- (H j i Hj Hi). f_equal. cbn. ring.
Qed.
Lemma op_view_disjoint o v r : disjoint2 r (blk2 v) -> disjoint2 r (blk2 (op_view o v)).
Proof.
  intros D. destruct o; cbn [op_view]; try exact D. intros i j i' j' Hi Hj Hi' Hj' e. apply (D i j j' i' Hi Hj Hj' Hi'). rewrite e. cbn. ring.
Qed.
Lemma op_view_size o v : is_conj o = false -> nr (op_view o v) = op_rows o (blk2 v) /\ nc (op_view o v) = op_cols o (blk2 v).
Proof. destruct o; try discriminate; cbn; auto. Qed.
Lemma op_view_layout o v : blas_layout v -> blas_layout (op_view o v).
Proof. unfold blas_layout, lead. destruct o; cbn [op_view tr2 row_order nc nr s0 s1]; auto. destruct (row_order v); cbn [negb]; auto. Qed.
Lemma gemp_d_ok ct opA opB alpha A B beta C a b c m :
  op_rows opA (blk2 A) = nr C -> op_cols opB (blk2 B) = nc C -> op_cols opA (blk2 A) = op_rows opB (blk2 B) ->
  (ct = true -> unit_stride C /\ blas_layout C /\ blas_layout A /\ blas_layout B) ->
  wf2 m (blk2 C) -> disjoint2 (blk2 C) (blk2 A) -> disjoint2 (blk2 C) (blk2 B) -> holds2 m (blk2 A) a -> holds2 m (blk2 B) b -> holds2 m (blk2 C) c ->
  exists m', gemp_d conj ct opA opB alpha A B beta C m = Some m' /\ only2 (blk2 C) m m' /\
    holds2 m' (blk2 C) (fun i j => alpha * sum (fun k => op_elem conj opA a i k * op_elem conj opB b k j) (op_cols opA (blk2 A)) + beta * c i j).
Proof.
  intros E1 E2 E3 L W Da Db Ha Hb Hc. unfold gemp_d. cbv zeta. destruct (ct && negb (is_conj opA) && negb (is_conj opB) && mm_rt (op_view opA A) (op_view opB B)) eqn:Q.
  - rewrite !andb_true_iff, !negb_true_iff in Q. destruct Q as [[[-> CA] CB] Q]. destruct (mm_rt_unit _ _ Q) as [Ua Ub]. destruct (L eq_refl) as (Ur & Lr & La & Lb).
    destruct (op_view_size opA A CA) as [SA1 SA2]. destruct (op_view_size opB B CB) as [SB1 SB2].
    destruct (mm_ok C alpha (op_view opA A) (op_view opB B) (Some beta) (op_elem conj opA a) (op_elem conj opB b) c m) as (m' & E & O & H); try assumption; try congruence.
    + apply op_view_layout; exact La.
    + apply op_view_layout; exact Lb.
    + apply op_view_disjoint; exact Da.
    + apply op_view_disjoint; exact Db.
    + apply op_view_holds; assumption.
    + apply op_view_holds; assumption.
    + intros _; exact Hc.
    + exists m'. split; [exact E|]. split; [exact O|]. rewrite <- SA2. exact H.
  - apply gemp_ok; assumption.
Qed.

(** matrix times vector. *)
Lemma read_off1 r m m1 (b : block2) x i j ad : disjoint21 b r -> holds2 m b x -> off1 r m m1 -> (i < rows b)%nat -> (j < cols b)%nat -> ad = addr2 b i j -> m1 ad = Some (x i j).
Proof. intros D H O Hi Hj ->. apply (holds2_off1 r b x m m1 D O H); assumption. Qed.
(** A vector as a matrix with one row in column order. *)
Definition row_of (r : v1) : block2 := colmajor (p1 r) (st1 r) 1 (n1 r).
Lemma row_wf m r : wf1 m (blk1 r) -> wf2 m (row_of r).
Proof.
  intros [A I]. split.
  - intros i j Hi Hj. cbn [rows cols row_of colmajor addr2] in *. replace (p1 r + Z.of_nat i + Z.of_nat j * st1 r)%Z with (addr1 (blk1 r) j) by (cbn; lia). apply A; exact Hj.
  - intros i j i' j' Hi Hj Hi' Hj' e. cbn [rows cols row_of colmajor addr2] in *. split; [lia|]. apply (I j j' Hj Hj'). cbn. lia.
Qed.
Lemma row_off m m1 r : off2 (row_of r) m m1 -> off1 (blk1 r) m m1.
Proof. intros [O A]. split; [|exact A]. intros a Ha. apply O. intros i j Hi Hj. cbn [rows cols row_of colmajor addr2] in *. replace (p1 r + Z.of_nat i + Z.of_nat j * st1 r)%Z with (addr1 (blk1 r) j) by (cbn; lia). apply Ha; exact Hj. Qed.
Lemma row_holds m r v : holds2 m (row_of r) v -> holds1 m (blk1 r) (fun j => v 0%nat j).
Proof. intros H j Hj. rewrite <- (H 0%nat j); [f_equal; cbn; lia|apply Nat.lt_0_1|exact Hj]. Qed.

Lemma prod_mv_d_ok ct r a b x y m : nc a = n1 b -> n1 r = nr a ->
  (ct = true -> (0 < st1 r)%Z /\ (0 < st1 b)%Z /\ blas_layout a /\ (row_order a = true -> s0 a = Z.of_nat (nc a))) ->
  wf1 m (blk1 r) -> disjoint21 (blk2 a) (blk1 r) -> disjoint1 (blk1 r) (blk1 b) -> holds2 m (blk2 a) x -> holds1 m (blk1 b) y ->
  exists m', prod_mv_d ct r a b m = Some m' /\ only1 (blk1 r) m m' /\ holds1 m' (blk1 r) (fun i => sum (fun k => x i k * y k) (nc a)).
Proof.
  intros E1 E2 L W Da Db Ha Hb. unfold prod_mv_d. rewrite !assert_true by (apply Nat.eqb_eq; assumption).
  destruct (ct && mv_rt a b) eqn:B.
  - apply andb_true_iff in B. destruct B as [-> B]. destruct (L eq_refl) as (Pr & Pb & La & Ld). unfold mv_blas. rewrite assert_true by (apply Nat.eqb_eq; exact E1).
    unfold mv_rt in B. unfold blas_layout, lead in La. destruct (row_order a) eqn:Oa.
    + apply andb_true_iff in B. rewrite !Z.eqb_eq in B. destruct B as [S1 Sb]. specialize (Ld eq_refl).
      destruct (gemm_ok false false 1 (nr a) (nc a) 1 (p1 b) (st1 b) (p2 a) (Z.of_nat (nc a)) None (p1 r) (st1 r) m
         (fun _ k => y k) (fun k i => x i k) (fun _ _ => 0)) as (m' & E & O & H).
      * apply ld_okT. lia.
      * apply ld_okT. lia.
      * apply ld_okT. lia.
      * rewrite <- E2. apply row_wf. exact W.
      * intros m1 i k O1 Hi Hk. rewrite <- E2 in O1. apply row_off in O1.
        pose proof (holds1_off (blk1 r) (blk1 b) y m m1 Db O1 Hb k ltac:(cbn; lia)) as Q. rewrite <- Q. f_equal. cbn. rewrite Sb. lia.
      * intros m1 k j O1 Hk Hj. rewrite <- E2 in O1. apply row_off in O1. apply (read_off1 (blk1 r) m m1 (blk2 a) x j k); auto. cbn. rewrite S1, Ld. lia.
      * intros Q; congruence.
      * rewrite <- E2 in *. exists m'. split; [exact E|]. split; [apply only1_off; apply row_off; exact O|].
        intros i Hi. rewrite (row_holds _ _ _ H i Hi). f_equal. replace (sum (fun k => y k * x i k) (nc a)) with (sum (fun k => x i k * y k) (nc a)) by (apply sum_ext; intros; ring). ring.
    + apply Z.eqb_eq in B.
      destruct (gemv_ok (nr a) (nc a) 1 (p2 a) (s1 a) (p1 b) (st1 b) (p1 r) (st1 r) m x y (blk1 r)) as (m' & E & O & H); try assumption.
      * apply ld_okT. exact La.
      * reflexivity.
      * intros m1 i k O1 Hi Hk. apply (read_off1 (blk1 r) m m1 (blk2 a) x i k); auto. cbn. rewrite B. lia.
      * intros m1 k O1 Hk. apply (holds1_off (blk1 r) (blk1 b) y m m1 Db O1 Hb k). cbn. lia.
      * exists m'. split; [exact E|]. split; [apply only1_off; exact O|]. intros i Hi. rewrite (H i Hi). f_equal. ring.
  - destruct (prod_mv_ok conj (blk1 r) (blk2 a) (blk1 b) x y m) as (m' & E & O & H); try assumption.
    exists m'. split; [|split; [exact O|exact H]]. unfold prod_matvec in E. cbn [rows cols len blk1 blk2] in E. rewrite !assert_true in E by (apply Nat.eqb_eq; congruence). exact E.
Qed.
Lemma prod_vm_d_ok ct r a b x y m : n1 a = nr b -> n1 r = nc b ->
  (ct = true -> (0 < st1 r)%Z /\ (0 < st1 a)%Z /\ blas_layout b /\ (row_order b = false -> s1 b = Z.of_nat (nr b))) ->
  wf1 m (blk1 r) -> disjoint1 (blk1 r) (blk1 a) -> disjoint21 (blk2 b) (blk1 r) -> holds1 m (blk1 a) x -> holds2 m (blk2 b) y ->
  exists m', prod_vm_d ct r a b m = Some m' /\ only1 (blk1 r) m m' /\ holds1 m' (blk1 r) (fun j => sum (fun k => x k * y k j) (n1 a)).
Proof.
  intros E1 E2 L W Da Db Ha Hb. unfold prod_vm_d. rewrite !assert_true by (apply Nat.eqb_eq; assumption).
  destruct (ct && vm_rt a b) eqn:B.
  - apply andb_true_iff in B. destruct B as [-> B]. destruct (L eq_refl) as (Pr & Pa & Lb & Ld). unfold vm_blas. rewrite assert_true by (apply Nat.eqb_eq; exact E1).
    unfold vm_rt in B. unfold blas_layout, lead in Lb. destruct (row_order b) eqn:Ob.
    + apply Z.eqb_eq in B.
      destruct (gemv_ok (nc b) (nr b) 1 (p2 b) (s0 b) (p1 a) (st1 a) (p1 r) (st1 r) m (fun j k => y k j) x (blk1 r)) as (m' & E & O & H); try assumption.
      * apply ld_okT. exact Lb.
      * reflexivity.
      * intros m1 i k O1 Hi Hk. apply (read_off1 (blk1 r) m m1 (blk2 b) y k i); auto. cbn. rewrite B. lia.
      * intros m1 k O1 Hk. apply (holds1_off (blk1 r) (blk1 a) x m m1 Da O1 Ha k). cbn. lia.
      * exists m'. split; [exact E|]. split; [apply only1_off; exact O|]. intros i Hi. rewrite (H i Hi), E1. f_equal. replace (sum (fun k => y k i * x k) (nr b)) with (sum (fun k => x k * y k i) (nr b)) by (apply sum_ext; intros; ring). ring.
    + apply andb_true_iff in B. rewrite !Z.eqb_eq in B. destruct B as [S0 Sa]. specialize (Ld eq_refl).
      destruct (gemm_ok false false 1 (nc b) (nr b) 1 (p1 a) (st1 a) (p2 b) (Z.of_nat (nr b)) None (p1 r) (st1 r) m
         (fun _ k => x k) y (fun _ _ => 0)) as (m' & E & O & H).
      * apply ld_okT. lia.
      * apply ld_okT. lia.
      * apply ld_okT. lia.
      * rewrite <- E2. apply row_wf. exact W.
      * intros m1 i k O1 Hi Hk. rewrite <- E2 in O1. apply row_off in O1.
        pose proof (holds1_off (blk1 r) (blk1 a) x m m1 Da O1 Ha k ltac:(cbn; lia)) as Q. rewrite <- Q. f_equal. cbn. rewrite Sa. lia.
      * intros m1 k j O1 Hk Hj. rewrite <- E2 in O1. apply row_off in O1. apply (read_off1 (blk1 r) m m1 (blk2 b) y k j); auto. cbn. rewrite S0, Ld. lia.
      * intros Q; congruence.
      * rewrite <- E2 in *. exists m'. split; [exact E|]. split; [apply only1_off; apply row_off; exact O|].
        intros i Hi. rewrite (row_holds _ _ _ H i Hi), E1. f_equal. ring.
  - destruct (prod_vm_ok conj (blk1 r) (blk1 a) (blk2 b) x y m) as (m' & E & O & H); try assumption.
    exists m'. split; [|split; [exact O|exact H]]. unfold prod_vecmat in E. cbn [rows cols len blk1 blk2] in E. rewrite !assert_true in E by (apply Nat.eqb_eq; congruence). exact E.
Qed.

(** dot. *)
Lemma start_at p inc n i : (i < n)%nat -> varg_at (start_of p inc n) inc n i = (p + Z.of_nat i * inc)%Z.
Proof. intros H. unfold varg_at, start_of. destruct (Z.ltb_spec inc 0); [|reflexivity]. rewrite Nat2Z.inj_sub by lia. cbn [Z.of_nat]. change (Z.of_nat 1) with 1%Z. ring. Qed.
Lemma dot_lib_ok c n a b x y m : n1 a = n -> n1 b = n -> holds1 m (blk1 a) x -> holds1 m (blk1 b) y ->
  dot_lib conj c n (start_of (p1 a) (st1 a) n) (st1 a) (start_of (p1 b) (st1 b) n) (st1 b) m = Some (sum (fun i => (if c then conj (x i) else x i) * y i) n).
Proof.
  intros Ea Eb Ha Hb. unfold dot_lib. rewrite (acc_loop _ (fun i => (if c then conj (x i) else x i) * y i)); [f_equal; ring|].
  intros k s Hk. rewrite !start_at by exact Hk. unfold mload. specialize (Ha k ltac:(cbn; lia)). specialize (Hb k ltac:(cbn; lia)). cbn in Ha, Hb. rewrite Ha. cbn [bind]. rewrite Hb. reflexivity.
Qed.

(** outer. *)
Lemma off2_trans r m m1 m2 : off2 r m m1 -> off2 r m1 m2 -> off2 r m m2.
Proof. intros [O A] [O' A']. split; [|apply alloc_trans with m1; assumption]. intros a Ha. rewrite O' by exact Ha. apply O; exact Ha. Qed.
Lemma off2_wf r m m1 : off2 r m m1 -> wf2 m r -> wf2 m1 r.
Proof. intros [_ A] [W I]. split; [|exact I]. intros i j Hi Hj. apply A. apply W; assumption. Qed.
Lemma ger_ok c M N alpha x incx y incy a lda m X Y Zc :
  ld_ok lda M = true -> (0 < incx)%Z -> (0 < incy)%Z -> let A := colmajor a lda M N in wf2 m A ->
  (forall m1 i, off2 A m m1 -> (i < M)%nat -> m1 (x + Z.of_nat i * incx)%Z = Some (X i)) ->
  (forall m1 i, off2 A m m1 -> (i < N)%nat -> m1 (y + Z.of_nat i * incy)%Z = Some (Y i)) ->
  holds2 m A Zc ->
  exists m', ger conj c M N alpha x incx y incy a lda m = Some m' /\ off2 A m m' /\
    holds2 m' A (fun i j => Zc i j + alpha * X i * (if c then conj (Y j) else Y j)).
Proof.
  intros H1 H2 H3 A W HX HY HZ. unfold ger, inc_ok. rewrite !assert_true; try assumption. 2,3: apply Bool.negb_true_iff; apply Z.eqb_neq; lia. cbv zeta. fold A.
  match goal with |- exists m', loop (fun i m => loop (fun j m => @?G i j m) _ _ m) _ _ _ = _ /\ _ /\ holds2 _ _ ?V => destruct (nest_up conj A m V G W) as (m' & E & O & H) end.
  - intros i j m1 Hi Hj O1 F. cbv beta. unfold mload, varg_at. destruct (Z.ltb_spec incx 0); [lia|]. destruct (Z.ltb_spec incy 0); [lia|].
    rewrite (HX m1 i O1 Hi), (HY m1 j O1 Hj). cbn [bind]. rewrite get2_ok by assumption. rewrite F, (HZ i j) by assumption. reflexivity.
  - exists m'. split; [exact E|]. split; assumption.
Qed.
Lemma fill0_ok r m : wf2 m (blk2 r) -> exists m', fill0 r m = Some m' /\ off2 (blk2 r) m m' /\ holds2 m' (blk2 r) (fun _ _ => 0).
Proof.
  intros W. destruct (nest_up conj (blk2 r) m (fun _ _ => 0) (fun i j m => put2 m (blk2 r) i j 0) W) as (m' & E & O & H); [reflexivity|].
  exists m'. split; [exact E|]. split; assumption.
Qed.
Lemma dense_cells r : dense2 r -> same_cells (row_order r) (if row_order r then colmajor (p2 r) (Z.of_nat (nc r)) (nc r) (nr r) else colmajor (p2 r) (Z.of_nat (nr r)) (nr r) (nc r)) (blk2 r).
Proof.
  unfold dense2, unit_stride, lead. destruct (row_order r); intros [U D]; (split; [reflexivity|]; split; [reflexivity|]); intros i j _ _; cbn [addr2 blk2 colmajor]; rewrite U, D; ring.
Qed.
Lemma holds1_read r m m1 (v : v1) x i : disjoint21 (blk2 r) (blk1 v) -> holds1 m (blk1 v) x -> off2 (blk2 r) m m1 -> (i < n1 v)%nat -> m1 (p1 v + Z.of_nat i * st1 v)%Z = Some (x i).
Proof. intros D H O Hi. apply (holds1_off2 (blk2 r) (blk1 v) x m m1 D O H i). exact Hi. Qed.

Lemma outer_d_ok ct cplx r alpha a b x y m :
  (forall u w, conj (u * w) = conj u * conj w) -> (forall u, conj (conj u) = u) ->
  n1 a = nr r -> n1 b = nc r -> (0 < nr r)%nat -> (0 < nc r)%nat -> dense2 r ->
  wf2 m (blk2 r) -> disjoint21 (blk2 r) (blk1 a) -> disjoint21 (blk2 r) (blk1 b) -> holds1 m (blk1 a) x -> holds1 m (blk1 b) y ->
  exists m', outer_d conj ct cplx r alpha a b m = Some m' /\ only2 (blk2 r) m m' /\
    holds2 m' (blk2 r) (fun i j => alpha * x i * (if cplx then conj (y j) else y j)).
Proof.
  intros CM CI Ea Eb Pr Pc D W Da Db Ha Hb. unfold outer_d. destruct (ct && outer_rt a b) eqn:B.
  2: { apply (outer_ok conj cplx (blk2 r) alpha (blk1 a) (blk1 b) x y m); assumption. }
  apply andb_true_iff in B. destruct B as [_ B]. unfold outer_rt in B. apply andb_true_iff in B. rewrite !Z.eqb_eq in B. destruct B as [Sa Sb].
  destruct (fill0_ok r m W) as (m1 & F & O1 & Z1).
  assert (W1 : wf2 m1 (blk2 r)) by (apply (off2_wf _ _ _ O1 W)).
  pose proof (dense_cells r D) as SC.
  assert (RA : forall m2 i, off2 (blk2 r) m1 m2 -> (i < nr r)%nat -> m2 (p1 a + Z.of_nat i * st1 a)%Z = Some (x i)).
  { intros m2 i O2 Hi. apply (holds1_read r m m2 a x i Da Ha (off2_trans _ _ _ _ O1 O2)). lia. }
  assert (RB : forall m2 i, off2 (blk2 r) m1 m2 -> (i < nc r)%nat -> m2 (p1 b + Z.of_nat i * st1 b)%Z = Some (y i)).
  { intros m2 i O2 Hi. apply (holds1_read r m m2 b y i Db Hb (off2_trans _ _ _ _ O1 O2)). lia. }
  destruct (row_order r) eqn:Or.
  - assert (G : forall c al, exists m2, ger conj c (n1 b) (n1 a) al (p1 b) (st1 b) (p1 a) (st1 a) (p2 r) (Z.of_nat (nc r)) m1 = Some m2 /\ off2 (blk2 r) m1 m2 /\
        holds2 m2 (blk2 r) (fun i j => al * y j * (if c then conj (x i) else x i))).
    { intros c al. rewrite Ea, Eb.
      destruct (ger_ok c (nc r) (nr r) al (p1 b) (st1 b) (p1 a) (st1 a) (p2 r) (Z.of_nat (nc r)) m1 y x (fun _ _ => 0)) as (m2 & E & O & H); try lia.
      - apply ld_okT. lia.
      - apply (cells_wf _ _ _ _ SC W1).
      - intros m2 i O2 Hi. apply RB; [apply (cells_off _ _ _ _ _ SC O2)|exact Hi].
      - intros m2 i O2 Hi. apply RA; [apply (cells_off _ _ _ _ _ SC O2)|exact Hi].
      - apply (cells_holds' _ _ _ _ _ SC Z1).
      - exists m2. split; [exact E|]. split; [apply (cells_off _ _ _ _ _ SC O)|]. intros i j Hi Hj. rewrite (cells_holds _ _ _ _ _ SC H i j Hi Hj). f_equal. ring. }
    destruct cplx.
    + unfold outerc_blas. rewrite !assert_true by (apply Nat.eqb_eq; assumption). rewrite F, Or. cbn [bind]. destruct (G true 1) as (m2 & E2 & O2 & H2). rewrite E2. cbn [bind].
      assert (W2 : wf2 m2 (blk2 r)) by (apply (off2_wf _ _ _ O2 W1)).
      match goal with |- exists m', loop (fun i m => loop (fun j m => @?G i j m) _ _ m) _ _ _ = _ /\ _ /\ holds2 _ _ ?V => destruct (nest_up conj (blk2 r) m2 V G W2) as (m3 & E3 & O3 & H3) end.
      * intros i j m4 Hi Hj O4 F4. cbv beta. rewrite get2_ok by assumption. rewrite F4, (H2 i j Hi Hj). cbn [bind]. f_equal. rewrite !CM, CI.
        assert (C1 : conj 1 = 1). { pose proof (CM (conj 1) 1) as Q. replace (conj 1 * 1) with (conj 1) in Q by ring. rewrite CI in Q. transitivity (1 * conj 1); [ring|symmetry; exact Q]. }
        rewrite C1. ring.
      * exists m3. split; [exact E3|]. split; [|exact H3]. apply only2_off. apply (off2_trans _ _ m1); [exact O1|]. apply (off2_trans _ _ m2); assumption.
    + unfold outer_blas. rewrite !assert_true by (apply Nat.eqb_eq; assumption). rewrite F, Or. cbn [bind]. destruct (G false alpha) as (m2 & E2 & O2 & H2). exists m2.
      split; [exact E2|]. split; [apply only2_off; apply (off2_trans _ _ m1); assumption|]. intros i j Hi Hj. rewrite (H2 i j Hi Hj). f_equal. ring.
  - assert (G : forall c al, exists m2, ger conj c (n1 a) (n1 b) al (p1 a) (st1 a) (p1 b) (st1 b) (p2 r) (Z.of_nat (nr r)) m1 = Some m2 /\ off2 (blk2 r) m1 m2 /\
        holds2 m2 (blk2 r) (fun i j => al * x i * (if c then conj (y j) else y j))).
    { intros c al. rewrite Ea, Eb.
      destruct (ger_ok c (nr r) (nc r) al (p1 a) (st1 a) (p1 b) (st1 b) (p2 r) (Z.of_nat (nr r)) m1 x y (fun _ _ => 0)) as (m2 & E & O & H); try lia.
      - apply ld_okT. lia.
      - apply (cells_wf _ _ _ _ SC W1).
      - intros m2 i O2 Hi. apply RA; [apply (cells_off _ _ _ _ _ SC O2)|exact Hi].
      - intros m2 i O2 Hi. apply RB; [apply (cells_off _ _ _ _ _ SC O2)|exact Hi].
      - apply (cells_holds' _ _ _ _ _ SC Z1).
      - exists m2. split; [exact E|]. split; [apply (cells_off _ _ _ _ _ SC O)|]. intros i j Hi Hj. rewrite (cells_holds _ _ _ _ _ SC H i j Hi Hj). f_equal. ring. }
    destruct cplx; unfold outerc_blas, outer_blas; rewrite !assert_true by (apply Nat.eqb_eq; assumption); rewrite F, Or; cbn [bind].
    + destruct (G true alpha) as (m2 & E2 & O2 & H2). exists m2. split; [exact E2|]. split; [apply only2_off; apply (off2_trans _ _ m1); assumption|exact H2].
    + destruct (G false alpha) as (m2 & E2 & O2 & H2). exists m2. split; [exact E2|]. split; [apply only2_off; apply (off2_trans _ _ m1); assumption|exact H2].
Qed.
End P.
