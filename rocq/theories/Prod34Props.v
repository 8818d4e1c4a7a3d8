(** Property C44: products by 3x3 and 4x4 matrices, and operands that do not
    match. *)
From Coq Require Import ZArith List Lia Bool Arith.
From Verif Require Import Base Fir Freqswap Conv Matvec ConvProofs MatvecProofs Prod34 Prod34Proofs.
Import ListNotations.
Local Open Scope nat_scope.

Section C44.
Context {K : CRing} (conj : K -> K).
Local Open Scope cr_scope.

(** prod3 and prod4 are the product when the second operand has 3 (4) rows. *)
Theorem C44_prod3 (r a b : block2) (x y : nat -> nat -> K) m :
  wf2 m r -> rows a = 3%nat -> cols a = 3%nat -> rows b = 3%nat -> rows r = 3%nat -> cols r = cols b -> disjoint2 r a -> disjoint2 r b -> holds2 m a x -> holds2 m b y ->
  exists m', prod3 conj r a b m = Some m' /\ only2 r m m' /\ holds2 m' r (fun i j => x i 0%nat * y 0%nat j + x i 1%nat * y 1%nat j + x i 2%nat * y 2%nat j).
Proof.
  intros W A1 A2 B1 R1 R2 Da Db Ha Hb. unfold prod3. rewrite !FirProofs.assert_true by (apply Nat.eqb_eq; assumption).
  destruct (prod_mm_ok conj false r (plain2 a) (plain2 b) x y m W ltac:(cbn; lia) R2 ltac:(cbn; lia) (r2_plain r m a x Da Ha) (r2_plain r m b y Db Hb)) as (m' & E & O & H).
  exists m'. split; [exact E|]. split; [exact O|]. intros i j Hi Hj. rewrite H by assumption. cbn [acols plain2]. rewrite A2. cbn [sum]. f_equal.
  pose proof (r_th K) as T. rewrite (Ring_theory.Radd_0_l T). reflexivity.
Qed.
Theorem C44_prod4 (r a b : block2) (x y : nat -> nat -> K) m :
  wf2 m r -> rows a = 4%nat -> cols a = 4%nat -> rows b = 4%nat -> rows r = 4%nat -> cols r = cols b -> disjoint2 r a -> disjoint2 r b -> holds2 m a x -> holds2 m b y ->
  exists m', prod4 conj r a b m = Some m' /\ only2 r m m' /\ holds2 m' r (fun i j => x i 0%nat * y 0%nat j + x i 1%nat * y 1%nat j + x i 2%nat * y 2%nat j + x i 3%nat * y 3%nat j).
Proof.
  intros W A1 A2 B1 R1 R2 Da Db Ha Hb. unfold prod4. rewrite !FirProofs.assert_true by (apply Nat.eqb_eq; assumption).
  destruct (prod_mm_ok conj false r (plain2 a) (plain2 b) x y m W ltac:(cbn; lia) R2 ltac:(cbn; lia) (r2_plain r m a x Da Ha) (r2_plain r m b y Db Hb)) as (m' & E & O & H).
  exists m'. split; [exact E|]. split; [exact O|]. intros i j Hi Hj. rewrite H by assumption. cbn [acols plain2]. rewrite A2. cbn [sum]. f_equal.
  pose proof (r_th K) as T. rewrite (Ring_theory.Radd_0_l T). reflexivity.
Qed.
Theorem C44_prod3_vector (r : block1) (a : block2) (b : block1) (x : nat -> nat -> K) (y : nat -> K) m :
  wf1 m r -> rows a = 3%nat -> cols a = 3%nat -> len b = 3%nat -> len r = 3%nat -> disjoint21 a r -> disjoint1 r b -> holds2 m a x -> holds1 m b y ->
  exists m', prod3_vec r a b m = Some m' /\ only1 r m m' /\ holds1 m' r (fun i => x i 0%nat * y 0%nat + x i 1%nat * y 1%nat + x i 2%nat * y 2%nat).
Proof.
  intros W A1 A2 B1 R1 Da Db Ha Hb. unfold prod3_vec. rewrite !FirProofs.assert_true by (apply Nat.eqb_eq; lia).
  destruct (prod_mv_le conj r a b x y m W ltac:(lia) ltac:(lia) Da Db Ha Hb) as (m' & E & O & H).
  exists m'. split; [exact E|]. split; [exact O|]. intros i Hi. rewrite H by assumption. rewrite A2. cbn [sum]. f_equal.
  pose proof (r_th K) as T. rewrite (Ring_theory.Radd_0_l T). reflexivity.
Qed.
Theorem C44_prod4_vector (r : block1) (a : block2) (b : block1) (x : nat -> nat -> K) (y : nat -> K) m :
  wf1 m r -> rows a = 4%nat -> cols a = 4%nat -> len b = 4%nat -> len r = 4%nat -> disjoint21 a r -> disjoint1 r b -> holds2 m a x -> holds1 m b y ->
  exists m', prod4_vec r a b m = Some m' /\ only1 r m m' /\ holds1 m' r (fun i => x i 0%nat * y 0%nat + x i 1%nat * y 1%nat + x i 2%nat * y 2%nat + x i 3%nat * y 3%nat).
Proof.
  intros W A1 A2 B1 R1 Da Db Ha Hb. unfold prod4_vec. rewrite !FirProofs.assert_true by (apply Nat.eqb_eq; lia).
  destruct (prod_mv_le conj r a b x y m W ltac:(lia) ltac:(lia) Da Db Ha Hb) as (m' & E & O & H).
  exists m'. split; [exact E|]. split; [exact O|]. intros i Hi. rewrite H by assumption. rewrite A2. cbn [sum]. f_equal.
  pose proof (r_th K) as T. rewrite (Ring_theory.Radd_0_l T). reflexivity.
Qed.
(** prod refuses every pair of operands whose inner sizes differ, and every
    destination of the wrong size. *)
Theorem C44_prod_mismatch (r a b : block2) (v w : block1) m :
  (cols a <> rows b \/ rows r <> rows a \/ cols r <> cols b -> prod conj r a b m = None) /\
  (cols a <> len v \/ len w <> rows a -> prod_matvec w a v m = None) /\
  (len v <> rows b \/ len w <> cols b -> prod_vecmat w v b m = None).
Proof.
  assert (N : forall p q, p <> q -> (p =? q)%nat = false) by (intros p q H; apply Nat.eqb_neq; exact H).
  split; [|split].
  - intros [H|[H|H]]; unfold prod, assign_prod; cbn [plain2 arows acols]; rewrite (N _ _ H); destruct (cols a =? rows b)%nat; try reflexivity; destruct (rows r =? rows a)%nat; reflexivity.
  - intros [H|H]; unfold prod_matvec; rewrite (N _ _ H); destruct (cols a =? len v)%nat; reflexivity.
  - intros [H|H]; unfold prod_vecmat; rewrite (N _ _ H); destruct (len v =? rows b)%nat; reflexivity.
Qed.
(** An operand that is too short is noticed by all of them: the first element
    read outside it is refused. *)
Theorem C44_short_operand (r a b : block2) (v w : block1) m : (0 < rows r)%nat -> (0 < cols r)%nat -> (0 < len w)%nat ->
  (rows b < cols a -> prodj conj r a b m = None /\ prod3 conj r a b m = None /\ prod4 conj r a b m = None)%nat /\
  (cols b < cols a -> prodh conj r a b m = None /\ prodt conj r a b m = None)%nat /\
  (len v < cols a -> prod3_vec w a v m = None /\ prod4_vec w a v m = None)%nat.
Proof.
  intros Hr Hc Hw. split; [|split]; intros L.
  - assert (A : forall h, assign_prod conj h r (plain2 a) (plain2 b) m = None)
      by (intros h; apply prod_mm_short; try assumption; intros m' k j Hk; apply get2_row_out; exact Hk).
    unfold prodj, prod3, prod4. rewrite !A. split; [reflexivity|].
    split; [destruct (rows a =? 3)%nat, (cols a =? 3)%nat|destruct (rows a =? 4)%nat, (cols a =? 4)%nat]; reflexivity.
  - assert (A : forall h, assign_prod conj h r (plain2 a) (trans2 (plain2 b)) m = None)
      by (intros h; apply prod_mm_short; try assumption; intros m' k j Hk; cbn [trans2 aget2 plain2]; apply get2_col_out; exact Hk).
    unfold prodh, prodt. rewrite !A. split; reflexivity.
  - unfold prod3_vec, prod4_vec. rewrite !(prod_mv_short conj w a v m Hw L).
    split; [destruct (rows a =? 3)%nat, (cols a =? 3)%nat|destruct (rows a =? 4)%nat, (cols a =? 4)%nat]; try reflexivity; destruct (len w =? rows a)%nat; reflexivity.
Qed.
(** The matrix cumulative sum refuses a destination that is too small. *)
Theorem C44_cumsum_short d (v w : block2) m : (d < 2)%nat -> (0 < rows v)%nat -> (0 < cols v)%nat -> (rows w < rows v \/ cols w < cols v)%nat ->
  cumsum2 (K := K) d v w m = None.
Proof. exact (cumsum2_short conj d v w m). Qed.

(** Defect: prodj, prodh, prodt, prod3 and prod4 do not check that the inner
    sizes agree, unlike prod.  When the second operand is longer than the
    first is wide, they accept it and silently compute a product with a part of
    it. *)
Theorem C44_inner_size_refuted (r a b : block2) (v w : block1) (x y : nat -> nat -> K) (z : nat -> K) m :
  wf2 m r -> wf1 m w -> disjoint2 r a -> disjoint2 r b -> disjoint21 a w -> disjoint1 w v -> holds2 m a x -> holds2 m b y -> holds1 m v z -> rows r = rows a -> len w = rows a ->
  (cols r = cols b -> cols a < rows b ->
    (exists m', prodj conj r a b m = Some m' /\ holds2 m' r (fun i j => sum (fun k => x i k * conj (y k j)) (cols a))) /\
    (rows a = 3%nat -> cols a = 3%nat -> exists m', prod3 conj r a b m = Some m' /\ holds2 m' r (fun i j => sum (fun k => x i k * y k j) 3%nat)) /\
    (rows a = 4%nat -> cols a = 4%nat -> exists m', prod4 conj r a b m = Some m' /\ holds2 m' r (fun i j => sum (fun k => x i k * y k j) 4%nat))) /\
  (cols r = rows b -> cols a < cols b ->
    (exists m', prodh conj r a b m = Some m' /\ holds2 m' r (fun i j => sum (fun k => x i k * conj (y j k)) (cols a))) /\
    (exists m', prodt conj r a b m = Some m' /\ holds2 m' r (fun i j => sum (fun k => x i k * y j k) (cols a)))) /\
  (cols a < len v ->
    (rows a = 3%nat -> cols a = 3%nat -> exists m', prod3_vec w a v m = Some m' /\ holds1 m' w (fun i => sum (fun k => x i k * z k) 3%nat)) /\
    (rows a = 4%nat -> cols a = 4%nat -> exists m', prod4_vec w a v m = Some m' /\ holds1 m' w (fun i => sum (fun k => x i k * z k) 4%nat))).
Proof.
  intros W Ww Da Db Daw Dwv Ha Hb Hv Er Ew. split; [|split].
  - intros Ec L. assert (A : forall h, exists m', assign_prod conj h r (plain2 a) (plain2 b) m = Some m' /\ holds2 m' r (fun i j => sum (fun k => x i k * (if h then conj (y k j) else y k j)) (cols a))).
    { intros h. destruct (prod_mm_le conj h r (plain2 a) (plain2 b) x y m W Er Ec ltac:(cbn; lia) (r2_plain r m a x Da Ha) (r2_plain r m b y Db Hb)) as (m' & E & _ & H). exists m'. split; [exact E|exact H]. }
    split; [exact (A true)|]. split; intros A1 A2; [unfold prod3|unfold prod4]; rewrite !FirProofs.assert_true by (apply Nat.eqb_eq; assumption);
      destruct (A false) as (m' & E & H); rewrite A2 in H; exists m'; split; assumption.
  - intros Ec L. assert (A : forall h, exists m', assign_prod conj h r (plain2 a) (trans2 (plain2 b)) m = Some m' /\ holds2 m' r (fun i j => sum (fun k => x i k * (if h then conj (y j k) else y j k)) (cols a))).
    { intros h. destruct (prod_mm_le conj h r (plain2 a) (trans2 (plain2 b)) x (fun k j => y j k) m W Er Ec ltac:(cbn; lia) (r2_plain r m a x Da Ha) (r2_trans r m _ y (r2_plain r m b y Db Hb))) as (m' & E & _ & H). exists m'. split; [exact E|exact H]. }
    split; [exact (A true)|exact (A false)].
  - intros L. destruct (prod_mv_le conj w a v x z m Ww Ew ltac:(lia) Daw Dwv Ha Hv) as (m' & E & _ & H).
    split; intros A1 A2; rewrite A2 in H; exists m'; (split; [|exact H]); [unfold prod3_vec|unfold prod4_vec]; rewrite !FirProofs.assert_true by (apply Nat.eqb_eq; lia); exact E.
Qed.
End C44.

(** The hypotheses are met by matrices side by side in memory: a 1x2 matrix
    times a 3x1 matrix, and a 3x3 matrix times a vector of length four. *)
Definition cells : list Z := [1;2;3;4;5;6;7;8;9; 10;20;30;40; 0;0;0]%Z.
Definition show (m : mem Z) (base n : nat) : list (option Z) := map (fun i => m (Z.of_nat (base + i))) (seq 0 n).
Example C44_ex_prod34 : let m := mem_of cells in
  let A := mat_at 0 1 2 in let B := mat_at 9 3 1 in let R := mat_at 13 1 1 in
  wf2 m R /\ disjoint2 R A /\ disjoint2 R B /\ cols A < rows B /\
  (m' <- prodj (K := Zring) (fun x => x) R A B m ;; Some (show m' 13 1)) = Some [Some 50]%Z /\
  prod (K := Zring) (fun x => x) R A B m = None /\
  (m' <- prod3_vec (K := Zring) (vec_at 13 3) (mat_at 0 3 3) (vec_at 9 4) m ;; Some (show m' 13 3)) = Some [Some 140; Some 320; Some 500]%Z /\
  (m' <- prod3 (K := Zring) (fun x => x) (mat_at 13 3 1) (mat_at 0 3 3) (mat_at 10 3 1) m ;; Some (show m' 13 3)) = Some [Some 200; Some 470; Some 740]%Z /\
  prod4 (K := Zring) (fun x => x) (mat_at 13 3 1) (mat_at 0 3 3) (mat_at 10 3 1) m = None /\
  cumsum2 (K := Zring) 0 (mat_at 0 2 3) (mat_at 10 2 2) m = None.
Proof.
  cbv zeta. split; [apply mat_at_wf; cbn; lia|]. split; [apply mat_at_disjoint; lia|]. split; [apply mat_at_disjoint; lia|].
  split; [cbn; lia|]. repeat split; vm_compute; reflexivity.
Qed.

Print Assumptions C44_prod3.
Print Assumptions C44_prod4.
Print Assumptions C44_prod3_vector.
Print Assumptions C44_prod4_vector.
Print Assumptions C44_prod_mismatch.
Print Assumptions C44_short_operand.
Print Assumptions C44_cumsum_short.
Print Assumptions C44_inner_size_refuted.
