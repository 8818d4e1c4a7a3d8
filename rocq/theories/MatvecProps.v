(** Properties C44 and C48: matrix and vector products, modulation. *)
From Coq Require Import ZArith List Lia Bool Arith.
From Verif Require Import Base Fir Freqswap Conv Matvec ConvProofs MatvecProofs.
Import ListNotations.
Local Open Scope nat_scope.

Section C44.
Context {K : CRing} (conj : K -> K).
Local Open Scope cr_scope.

(** Dot products. *)
Theorem C44_dot (a b : block1) (x y : nat -> K) m : len a = len b -> holds1 m a x -> holds1 m b y ->
  dot (plain1 a) (plain1 b) m = Some (sum (fun i => x i * y i) (len a)).
Proof.
  intros L Ha Hb. apply (dot_eq conj (plain1 a) (plain1 b) x y m L); intros i Hi; cbn in *; rewrite FreqswapProofs.get1_ok by assumption; auto.
Qed.
Theorem C44_cvjdot (a b : block1) (x y : nat -> K) m : len a = len b -> holds1 m a x -> holds1 m b y ->
  cvjdot conj (plain1 a) (plain1 b) m = Some (sum (fun i => x i * conj (y i)) (len a)).
Proof.
  intros L Ha Hb. apply (dot_eq conj (plain1 a) (conj1 conj (plain1 b)) x (fun i => conj (y i)) m L); intros i Hi; cbn in *; rewrite FreqswapProofs.get1_ok by assumption; [auto|rewrite Hb by assumption; reflexivity].
Qed.
(** Outer product; for complex alpha the second vector is conjugated. *)
Theorem C44_outer (hermitian : bool) (r : block2) alpha (a b : block1) (x y : nat -> K) m :
  wf2 m r -> len a = rows r -> len b = cols r -> disjoint21 r a -> disjoint21 r b -> holds1 m a x -> holds1 m b y ->
  exists m', outer conj hermitian r alpha (plain1 a) (plain1 b) m = Some m' /\ only2 r m m' /\
    holds2 m' r (fun i j => alpha * x i * (if hermitian then conj (y j) else y j)).
Proof. exact (outer_ok conj hermitian r alpha a b x y m). Qed.
(** Kronecker products. *)
Theorem C44_kron_vectors (r : block2) alpha (v w : block1) (x y : nat -> K) m :
  wf2 m r -> len w = rows r -> len v = cols r -> disjoint21 r v -> disjoint21 r w -> holds1 m v x -> holds1 m w y ->
  exists m', kron1 r alpha (plain1 v) (plain1 w) m = Some m' /\ only2 r m m' /\ holds2 m' r (fun i j => alpha * y i * x j).
Proof. exact (kron1_ok conj r alpha v w x y m). Qed.
Theorem C44_kron_matrices (r : block2) alpha (v w : block2) (a b : nat -> nat -> K) m :
  wf2 m r -> rows r = (rows v * rows w)%nat -> cols r = (cols v * cols w)%nat -> disjoint2 r v -> disjoint2 r w -> holds2 m v a -> holds2 m w b ->
  exists m', kron2 r alpha (plain2 v) (plain2 w) m = Some m' /\ only2 r m m' /\
    forall i j k l, (i < rows v)%nat -> (j < rows w)%nat -> (k < cols v)%nat -> (l < cols w)%nat ->
      m' (addr2 r (i * rows w + j) (k * cols w + l)) = Some (alpha * a i k * b j l).
Proof. exact (kron2_ok conj r alpha v w a b m). Qed.
(** C = alpha op(A) op(B) + beta C, for the four operators on either side. *)
Theorem C44_gemp opA opB alpha (A B : block2) beta (C : block2) (a b c : nat -> nat -> K) m :
  op_rows opA A = rows C -> op_cols opB B = cols C -> op_cols opA A = op_rows opB B ->
  wf2 m C -> disjoint2 C A -> disjoint2 C B -> holds2 m A a -> holds2 m B b -> holds2 m C c ->
  exists m', gemp conj opA opB alpha A B beta C m = Some m' /\ only2 C m m' /\
    holds2 m' C (fun i j => alpha * sum (fun k => op_elem conj opA a i k * op_elem conj opB b k j) (op_cols opA A) + beta * c i j).
Proof. exact (gemp_ok conj opA opB alpha A B beta C a b c m). Qed.
(** C = alpha op(A) + beta C; A may be C itself unless it is transposed. *)
Theorem C44_gems opA alpha (A : block2) beta (C : block2) (a c : nat -> nat -> K) m :
  op_rows opA A = rows C -> op_cols opA A = cols C -> wf2 m C ->
  (disjoint2 C A \/ ((opA = mat_ntrans \/ opA = mat_conj) /\ apart_or_same2 C A)) -> holds2 m A a -> holds2 m C c ->
  exists m', gems conj opA alpha A beta C m = Some m' /\ only2 C m m' /\ holds2 m' C (fun i j => alpha * op_elem conj opA a i j + beta * c i j).
Proof. exact (gems_ok conj opA alpha A beta C a c m). Qed.
(** Matrix products. *)
Theorem C44_prod (r a b : block2) (x y : nat -> nat -> K) m :
  wf2 m r -> rows r = rows a -> cols r = cols b -> cols a = rows b -> disjoint2 r a -> disjoint2 r b -> holds2 m a x -> holds2 m b y ->
  exists m', prod conj r a b m = Some m' /\ only2 r m m' /\ holds2 m' r (fun i j => sum (fun k => x i k * y k j) (cols a)).
Proof.
  intros W Er Ec Ek Da Db Ha Hb. unfold prod. rewrite FirProofs.assert_true by (apply Nat.eqb_eq; exact Ek).
  exact (prod_mm_ok conj false r (plain2 a) (plain2 b) x y m W Er Ec Ek (r2_plain r m a x Da Ha) (r2_plain r m b y Db Hb)).
Qed.
Theorem C44_prodj (r a b : block2) (x y : nat -> nat -> K) m :
  wf2 m r -> rows r = rows a -> cols r = cols b -> cols a = rows b -> disjoint2 r a -> disjoint2 r b -> holds2 m a x -> holds2 m b y ->
  exists m', prodj conj r a b m = Some m' /\ only2 r m m' /\ holds2 m' r (fun i j => sum (fun k => x i k * conj (y k j)) (cols a)).
Proof.
  intros W Er Ec Ek Da Db Ha Hb.
  exact (prod_mm_ok conj true r (plain2 a) (plain2 b) x y m W Er Ec Ek (r2_plain r m a x Da Ha) (r2_plain r m b y Db Hb)).
Qed.
Theorem C44_prodh (r a b : block2) (x y : nat -> nat -> K) m :
  wf2 m r -> rows r = rows a -> cols r = rows b -> cols a = cols b -> disjoint2 r a -> disjoint2 r b -> holds2 m a x -> holds2 m b y ->
  exists m', prodh conj r a b m = Some m' /\ only2 r m m' /\ holds2 m' r (fun i j => sum (fun k => x i k * conj (y j k)) (cols a)).
Proof.
  intros W Er Ec Ek Da Db Ha Hb.
  exact (prod_mm_ok conj true r (plain2 a) (trans2 (plain2 b)) x (fun k j => y j k) m W Er Ec Ek (r2_plain r m a x Da Ha) (r2_trans r m _ y (r2_plain r m b y Db Hb))).
Qed.
Theorem C44_prodt (r a b : block2) (x y : nat -> nat -> K) m :
  wf2 m r -> rows r = rows a -> cols r = rows b -> cols a = cols b -> disjoint2 r a -> disjoint2 r b -> holds2 m a x -> holds2 m b y ->
  exists m', prodt conj r a b m = Some m' /\ only2 r m m' /\ holds2 m' r (fun i j => sum (fun k => x i k * y j k) (cols a)).
Proof.
  intros W Er Ec Ek Da Db Ha Hb.
  exact (prod_mm_ok conj false r (plain2 a) (trans2 (plain2 b)) x (fun k j => y j k) m W Er Ec Ek (r2_plain r m a x Da Ha) (r2_trans r m _ y (r2_plain r m b y Db Hb))).
Qed.
Theorem C44_matrix_vector (r : block1) (a : block2) (b : block1) (x : nat -> nat -> K) (y : nat -> K) m :
  wf1 m r -> len r = rows a -> cols a = len b -> disjoint21 a r -> disjoint1 r b -> holds2 m a x -> holds1 m b y ->
  exists m', prod_matvec r a b m = Some m' /\ only1 r m m' /\ holds1 m' r (fun i => sum (fun k => x i k * y k) (cols a)).
Proof. exact (prod_mv_ok conj r a b x y m). Qed.
Theorem C44_vector_matrix (r a : block1) (b : block2) (x : nat -> K) (y : nat -> nat -> K) m :
  wf1 m r -> len r = cols b -> len a = rows b -> disjoint1 r a -> disjoint21 b r -> holds1 m a x -> holds2 m b y ->
  exists m', prod_vecmat r a b m = Some m' /\ only1 r m m' /\ holds1 m' r (fun j => sum (fun k => x k * y k j) (len a)).
Proof. exact (prod_vm_ok conj r a b x y m). Qed.
(** Cumulative sums, in place or into a separate view; d = 0 runs along the
    rows, d = 1 along the columns. *)
Theorem C44_cumsum_vector (v w : block1) (x : nat -> K) m : wf1 m w -> len v = len w -> apart_or_same1 w v -> holds1 m v x ->
  exists m', cumsum1 v w m = Some m' /\ only1 w m m' /\ holds1 m' w (fun i => sum x (S i)).
Proof. exact (cumsum1_ok conj v w x m). Qed.
Theorem C44_cumsum_matrix d (v w : block2) (x : nat -> nat -> K) m : (d < 2)%nat -> wf2 m w -> rows v = rows w -> cols v = cols w -> apart_or_same2 w v -> holds2 m v x ->
  exists m', cumsum2 d v w m = Some m' /\ only2 w m m' /\
    holds2 m' w (fun i j => if (d =? 0)%nat then sum (fun t => x i t) (S j) else sum (fun t => x t j) (S i)).
Proof. exact (cumsum2_ok conj d v w x m). Qed.

(** C48: modulation, in place or into a separate view. *)
Theorem C48_modulate expj (v w : block1) nu phi (x : nat -> K) m : wf1 m w -> len v = len w -> apart_or_same1 w v -> holds1 m v x ->
  exists m', modulate expj (plain1 v) nu phi w m = Some (of_nat (len w) * nu + phi, m') /\ only1 w m m' /\
    holds1 m' w (fun i => x i * expj (of_nat i * nu + phi)).
Proof. exact (modulate_ok conj expj v nu phi w x m). Qed.
(** Continuing with the returned phase is modulating the whole signal: the
    phase of sample i of the next frame is that of sample n + i. *)
Theorem C48_frames expj nu phi (v w v2 w2 : block1) (x x2 : nat -> K) m m1 phi1 :
  wf1 m w -> len v = len w -> apart_or_same1 w v -> holds1 m v x -> modulate expj (plain1 v) nu phi w m = Some (phi1, m1) ->
  wf1 m1 w2 -> len v2 = len w2 -> apart_or_same1 w2 v2 -> holds1 m1 v2 x2 -> disjoint1 w2 w ->
  exists phi2 m2, modulate expj (plain1 v2) nu phi1 w2 m1 = Some (phi2, m2) /\ phi2 = of_nat (len w + len w2) * nu + phi /\
    holds1 m2 w (fun i => x i * expj (of_nat i * nu + phi)) /\
    holds1 m2 w2 (fun i => x2 i * expj (of_nat (len w + i) * nu + phi)).
Proof.
  intros W L AS H E W2 L2 AS2 H2 D. destruct (modulate_ok conj expj v nu phi w x m W L AS H) as (m' & E' & O & P).
  rewrite E in E'. injection E' as -> ->. destruct (modulate_ok conj expj v2 nu (of_nat (len w) * nu + phi) w2 x2 m' W2 L2 AS2 H2) as (m2 & E2 & O2 & P2).
  assert (A : forall n k, of_nat (K := K) (n + k) * nu + phi = of_nat k * nu + (of_nat n * nu + phi)).
  { intros n k. unfold of_nat. rewrite sum_app. pose proof (r_th K) as T. rewrite (Ring_theory.Rdistr_l T). rewrite (Ring_theory.Radd_comm T (sum _ n * nu)), <- (Ring_theory.Radd_assoc T). reflexivity. }
  do 2 eexists. split; [exact E2|]. split; [symmetry; apply A|]. split.
  - intros i Hi. rewrite O2; [apply P; exact Hi|]. intros j Hj. apply D; assumption.
  - intros i Hi. rewrite A. apply P2. exact Hi.
Qed.
End C44.

(** The hypotheses are met by dense matrices side by side in memory. *)
Definition cells : list Z := [1;2;3;4;5;6; 7;8;9;10;11;12; 100;200;300;400;0;0;0]%Z.
Definition show (m : mem Z) (base n : nat) : list (option Z) := map (fun i => m (Z.of_nat (base + i))) (seq 0 n).
Example C44_ex_gemp :
  let A := mat_at 0 2 3 in let B := mat_at 6 3 2 in let C := mat_at 12 2 2 in let m := mem_of cells in
  wf2 m C /\ disjoint2 C A /\ disjoint2 C B /\ holds2 (K := Zring) m A (fun i j => nth (i * 3 + j) cells 0%Z) /\
  (m' <- gemp (K := Zring) (fun x => x) mat_ntrans mat_ntrans 2%Z A B 3%Z C m ;; Some (show m' 12 4)) = Some [Some 416; Some 728; Some 1178; Some 1508]%Z /\
  (m' <- prod (K := Zring) (fun x => x) C A B m ;; Some (show m' 12 4)) = Some [Some 58; Some 64; Some 139; Some 154]%Z /\
  (m' <- gemp (K := Zring) Z.opp mat_herm mat_conj 1%Z B (mat_at 0 3 2) 0%Z C m ;; Some (show m' 12 4)) = Some [Some 89; Some 116; Some 98; Some 128]%Z.
Proof.
  cbv zeta. split; [apply mat_at_wf; cbn; lia|]. split; [apply mat_at_disjoint; lia|]. split; [apply mat_at_disjoint; lia|].
  split; [apply (holds_mat_at cells 0 2 3); cbn; lia|]. repeat split; vm_compute; reflexivity.
Qed.
Example C44_ex_others : let m := mem_of cells in
  dot (K := Zring) (plain1 (vec_at 0 3)) (plain1 (vec_at 3 3)) m = Some 32%Z /\
  cvjdot (K := Zring) Z.opp (plain1 (vec_at 0 3)) (plain1 (vec_at 3 3)) m = Some (-32)%Z /\
  (m' <- outer (K := Zring) Z.opp false (mat_at 12 2 2) 10%Z (plain1 (vec_at 0 2)) (plain1 (vec_at 2 2)) m ;; Some (show m' 12 4)) = Some [Some 30; Some 40; Some 60; Some 80]%Z /\
  (m' <- kron2 (K := Zring) (mat_at 12 2 2) 10%Z (plain2 (mat_at 0 1 2)) (plain2 (mat_at 2 2 1)) m ;; Some (show m' 12 4)) = Some [Some 30; Some 60; Some 40; Some 80]%Z /\
  (m' <- cumsum2 (K := Zring) 0 (mat_at 0 2 3) (mat_at 0 2 3) m ;; Some (show m' 0 6)) = Some [Some 1; Some 3; Some 6; Some 4; Some 9; Some 15]%Z /\
  (m' <- cumsum2 (K := Zring) 1 (mat_at 0 2 3) (mat_at 0 2 3) m ;; Some (show m' 0 6)) = Some [Some 1; Some 2; Some 3; Some 5; Some 7; Some 9]%Z /\
  (m' <- prod_matvec (K := Zring) (vec_at 16 2) (mat_at 0 2 3) (vec_at 6 3) m ;; Some (show m' 16 2)) = Some [Some 50; Some 122]%Z /\
  (m' <- prod_vecmat (K := Zring) (vec_at 16 3) (vec_at 6 2) (mat_at 0 2 3) m ;; Some (show m' 16 3)) = Some [Some 39; Some 54; Some 69]%Z.
Proof. repeat split; vm_compute; reflexivity. Qed.
Example C48_ex : let m := mem_of cells in
  (r <- modulate (K := Zring) (fun x => x * x)%Z (plain1 (vec_at 0 3)) 2%Z 1%Z (vec_at 0 3) m ;; Some (fst r, show (snd r) 0 3)) = Some (7, [Some 1; Some 18; Some 75])%Z.
Proof. vm_compute. reflexivity. Qed.

(** The product is evaluated straight into the destination: A = prod(A, A) is
    not the square of A. *)
Theorem C44_in_place_refuted : exists (m m' : mem Z) (a : nat -> nat -> Z), let A := mat_at 0 2 2 in
  wf2 m A /\ holds2 (K := Zring) m A a /\ prod (K := Zring) (fun x => x) A A A m = Some m' /\
  ~ holds2 (K := Zring) m' A (fun i j => a i 0%nat * a 0%nat j + a i 1%nat * a 1%nat j)%Z.
Proof.
  exists (mem_of [1;2;3;4]%Z). eexists. exists (fun i j => nth (0 + i * 2 + j) [1;2;3;4]%Z 0%Z). cbv zeta.
  split; [apply mat_at_wf; cbn; lia|]. split; [apply (holds_mat_at [1;2;3;4]%Z 0 2 2); cbn; lia|]. split; [vm_compute; reflexivity|].
  intros H. specialize (H 0 1 ltac:(cbn; lia) ltac:(cbn; lia)). vm_compute in H. discriminate.
Qed.
(** The same with gemp and with the transposed gems. *)
Theorem C44_gemp_in_place_refuted : exists (m m' : mem Z) (a : nat -> nat -> Z), let A := mat_at 0 2 2 in
  wf2 m A /\ holds2 (K := Zring) m A a /\ gemp (K := Zring) (fun x => x) mat_ntrans mat_ntrans 1%Z A A 0%Z A m = Some m' /\
  ~ holds2 (K := Zring) m' A (fun i j => a i 0%nat * a 0%nat j + a i 1%nat * a 1%nat j)%Z.
Proof.
  exists (mem_of [1;2;3;4]%Z). eexists. exists (fun i j => nth (0 + i * 2 + j) [1;2;3;4]%Z 0%Z). cbv zeta.
  split; [apply mat_at_wf; cbn; lia|]. split; [apply (holds_mat_at [1;2;3;4]%Z 0 2 2); cbn; lia|]. split; [vm_compute; reflexivity|].
  intros H. specialize (H 1 0 ltac:(cbn; lia) ltac:(cbn; lia)). vm_compute in H. discriminate.
Qed.
Theorem C44_gems_in_place_refuted : exists (m m' : mem Z) (a : nat -> nat -> Z), let A := mat_at 0 2 2 in
  wf2 m A /\ holds2 (K := Zring) m A a /\ gems (K := Zring) (fun x => x) mat_trans 1%Z A 1%Z A m = Some m' /\
  ~ holds2 (K := Zring) m' A (fun i j => a j i + a i j)%Z.
Proof.
  exists (mem_of [1;2;3;4]%Z). eexists. exists (fun i j => nth (0 + i * 2 + j) [1;2;3;4]%Z 0%Z). cbv zeta.
  split; [apply mat_at_wf; cbn; lia|]. split; [apply (holds_mat_at [1;2;3;4]%Z 0 2 2); cbn; lia|]. split; [vm_compute; reflexivity|].
  intros H. specialize (H 1 0 ltac:(cbn; lia) ltac:(cbn; lia)). vm_compute in H. discriminate.
Qed.

Print Assumptions C44_dot.
Print Assumptions C44_cvjdot.
Print Assumptions C44_outer.
Print Assumptions C44_kron_vectors.
Print Assumptions C44_kron_matrices.
Print Assumptions C44_gemp.
Print Assumptions C44_gems.
Print Assumptions C44_prod.
Print Assumptions C44_prodj.
Print Assumptions C44_prodh.
Print Assumptions C44_prodt.
Print Assumptions C44_matrix_vector.
Print Assumptions C44_vector_matrix.
Print Assumptions C44_cumsum_vector.
Print Assumptions C44_cumsum_matrix.
Print Assumptions C44_in_place_refuted.
Print Assumptions C44_gemp_in_place_refuted.
Print Assumptions C44_gems_in_place_refuted.
Print Assumptions C48_modulate.
Print Assumptions C48_frames.
