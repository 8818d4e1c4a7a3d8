(** C64: products give the same result whichever back end computes them. *)
From Coq Require Import ZArith List Lia Bool Arith.
From Verif Require Import Base Freqswap Conv Matvec MatvecProofs Blas BlasProofs.
Import ListNotations.
Local Open Scope nat_scope.

Ltac sc := cbn [addr1 blk1 p1 st1 n1 len addr2 blk2 p2 s0 s1 nr nc rows cols tr2] in *.

Section P.
Context {K : CRing} (conj : K -> K).
Local Open Scope cr_scope.
Add Ring Kring : (r_th K).

(** r = prod(A, B): whatever the orders of the three matrices and whether
    BLAS can be used ([ct]) or not, [r] becomes the matrix product and nothing
    else changes.
    Missing: results with a non-unit minor stride and matrices whose rows
    run backwards, when BLAS is used (see the refuted theorems). *)
Theorem C64_matrix_matrix_partial ct (r a b : v2) (x y : nat -> nat -> K) (m : mem K) :
  nc a = nr b -> nr r = nr a -> nc r = nc b ->
  (ct = true -> unit_stride r /\ blas_layout r /\ blas_layout a /\ blas_layout b) ->
  wf2 m (blk2 r) -> disjoint2 (blk2 r) (blk2 a) -> disjoint2 (blk2 r) (blk2 b) ->
  holds2 m (blk2 a) x -> holds2 m (blk2 b) y ->
  exists m', prod_mm_d conj ct r a b m = Some m' /\ only2 (blk2 r) m m' /\
    holds2 m' (blk2 r) (fun i j => sum (fun k => x i k * y k j) (nc a)).
Proof. exact (prod_mm_d_ok conj ct r a b x y m). Qed.

(** gemp(alpha, A, B, beta, C) with all four operations on either operand. *)
Theorem C64_gemp_partial ct opA opB alpha (A B : v2) beta (C : v2) a b c m :
  op_rows opA (blk2 A) = nr C -> op_cols opB (blk2 B) = nc C -> op_cols opA (blk2 A) = op_rows opB (blk2 B) ->
  (ct = true -> unit_stride C /\ blas_layout C /\ blas_layout A /\ blas_layout B) ->
  wf2 m (blk2 C) -> disjoint2 (blk2 C) (blk2 A) -> disjoint2 (blk2 C) (blk2 B) ->
  holds2 m (blk2 A) a -> holds2 m (blk2 B) b -> holds2 m (blk2 C) c ->
  exists m', gemp_d conj ct opA opB alpha A B beta C m = Some m' /\ only2 (blk2 C) m m' /\
    holds2 m' (blk2 C) (fun i j =>
      alpha * sum (fun k => op_elem conj opA a i k * op_elem conj opB b k j) (op_cols opA (blk2 A)) + beta * c i j).
Proof. exact (gemp_d_ok conj ct opA opB alpha A B beta C a b c m). Qed.

(** r = prod(A, v).  Missing, when BLAS is used: matrices in row order whose
    rows are not adjacent, and vectors with a negative stride. *)
Theorem C64_matrix_vector_partial ct (r : v1) (a : v2) (b : v1) (x : nat -> nat -> K) (y : nat -> K) (m : mem K) :
  nc a = n1 b -> n1 r = nr a ->
  (ct = true -> (0 < st1 r)%Z /\ (0 < st1 b)%Z /\ blas_layout a /\ (row_order a = true -> s0 a = Z.of_nat (nc a))) ->
  wf1 m (blk1 r) -> disjoint21 (blk2 a) (blk1 r) -> disjoint1 (blk1 r) (blk1 b) ->
  holds2 m (blk2 a) x -> holds1 m (blk1 b) y ->
  exists m', prod_mv_d ct r a b m = Some m' /\ only1 (blk1 r) m m' /\
    holds1 m' (blk1 r) (fun i => sum (fun k => x i k * y k) (nc a)).
Proof. exact (prod_mv_d_ok conj ct r a b x y m). Qed.

(** r = prod(v, B).  Missing: the same for matrices in column order. *)
Theorem C64_vector_matrix_partial ct (r a : v1) (b : v2) (x : nat -> K) (y : nat -> nat -> K) (m : mem K) :
  n1 a = nr b -> n1 r = nc b ->
  (ct = true -> (0 < st1 r)%Z /\ (0 < st1 a)%Z /\ blas_layout b /\ (row_order b = false -> s1 b = Z.of_nat (nr b))) ->
  wf1 m (blk1 r) -> disjoint1 (blk1 r) (blk1 a) -> disjoint21 (blk2 b) (blk1 r) ->
  holds1 m (blk1 a) x -> holds2 m (blk2 b) y ->
  exists m', prod_vm_d ct r a b m = Some m' /\ only1 (blk1 r) m m' /\
    holds1 m' (blk1 r) (fun j => sum (fun k => x k * y k j) (n1 a)).
Proof. exact (prod_vm_d_ok conj ct r a b x y m). Qed.

(** outer(alpha, v, w): the result is a new matrix in either order; the
    second vector is conjugated for complex types ([cplx]). *)
Theorem C64_outer ct cplx (r : v2) alpha (a b : v1) (x y : nat -> K) (m : mem K) :
  (forall u w, conj (u * w) = conj u * conj w) -> (forall u, conj (conj u) = u) ->
  n1 a = nr r -> n1 b = nc r -> (0 < nr r)%nat -> (0 < nc r)%nat -> dense2 r ->
  wf2 m (blk2 r) -> disjoint21 (blk2 r) (blk1 a) -> disjoint21 (blk2 r) (blk1 b) ->
  holds1 m (blk1 a) x -> holds1 m (blk1 b) y ->
  exists m', outer_d conj ct cplx r alpha a b m = Some m' /\ only2 (blk2 r) m m' /\
    holds2 m' (blk2 r) (fun i j => alpha * x i * (if cplx then conj (y j) else y j)).
Proof. exact (outer_d_ok conj ct cplx r alpha a b x y m). Qed.

(** dot(v, w) of real vectors, with any strides, negative ones too. *)
Theorem C64_dot (a b : v1) (x y : nat -> K) (m : mem K) :
  n1 a = n1 b -> holds1 m (blk1 a) x -> holds1 m (blk1 b) y ->
  dot_blas (fun u => u) a b m = Some (sum (fun i => x i * y i) (n1 a)).
Proof.
  intros E Ha Hb. unfold dot_blas, dot_real. rewrite (proj2 (Nat.eqb_eq _ _) E). cbn [bind].
  exact (dot_lib_ok (fun u => u) false (n1 a) a b x y m eq_refl (eq_sym E) Ha Hb).
Qed.

(** dot(v, w) and cvjdot(v, w) (= dot(v, conj(w))) of single-precision complex vectors. *)
Theorem C64_complex_dot_partial narrow (a b : v1) (x y : nat -> K) (m : mem K) :
  n1 a = n1 b -> holds1 m (blk1 a) x -> holds1 m (blk1 b) y ->
  cdot_blas conj narrow false a b m = Some (sum (fun i => x i * y i) (n1 a)) /\
  cvjdot_blas conj narrow false a b m = Some (sum (fun i => conj (y i) * x i) (n1 a)).
Proof.
  intros E Ha Hb. unfold cdot_blas, cvjdot_blas, dot_cplx. rewrite (proj2 (Nat.eqb_eq _ _) E). cbn [bind].
  rewrite (dot_lib_ok conj false (n1 a) a b x y m eq_refl (eq_sym E) Ha Hb).
  rewrite (dot_lib_ok conj true (n1 a) b a y x m (eq_sym E) eq_refl Hb Ha). split; reflexivity.
Qed.

(** dot() of double-precision complex vectors is computed in double precision
    and then rounded to single precision: whenever some number [x] is not a
    single-precision one, dot of the one-element vectors (x) and (1) is not
    x. *)
Theorem C64_double_complex_dot_refuted narrow (x : K) : narrow x <> x ->
  exists (a b : v1) m, n1 a = 1%nat /\ n1 b = 1%nat /\
    holds1 m (blk1 a) (fun _ => x) /\ holds1 m (blk1 b) (fun _ => 1) /\
    cdot_blas conj narrow true a b m = Some (narrow x) /\
    cdot_blas conj narrow true a b m <> Some (sum (fun _ => x * 1) 1).
Proof.
  intros N. set (a := {| p1 := 0; st1 := 1; n1 := 1 |}). set (b := {| p1 := 1; st1 := 1; n1 := 1 |}). exists a, b, (mem_of [x; 1]).
  assert (Ha : holds1 (mem_of [x; 1]) (blk1 a) (fun _ => x)) by (intros i Hi; cbn in Hi; replace i with 0%nat by lia; reflexivity).
  assert (Hb : holds1 (mem_of [x; 1]) (blk1 b) (fun _ => 1)) by (intros i Hi; cbn in Hi; replace i with 0%nat by lia; reflexivity).
  assert (S : sum (fun _ => x * 1) 1 = x) by (cbn [sum]; ring).
  assert (E : cdot_blas conj narrow true a b (mem_of [x; 1]) = Some (narrow x)).
  { unfold cdot_blas, dot_cplx. cbn [n1 a b Nat.eqb bind]. rewrite (dot_lib_ok conj false 1 a b _ _ _ eq_refl eq_refl Ha Hb). cbn [bind]. rewrite S. reflexivity. }
  split; [reflexivity|]. split; [reflexivity|]. split; [exact Ha|]. split; [exact Hb|]. split; [exact E|]. rewrite E, S. congruence.
Qed.
End P.

(** ** What goes wrong: the same call with BLAS and without. *)

Definition getz (o : option (mem Z)) (a : Z) : option Z := match o with Some m => m a | None => None end.

(** r = prod(A, v) where A is a 2x2 part of a 3x4 matrix in row order (get_view
    / operator()): the BLAS evaluator passes the number of columns as the
    leading dimension, not the distance between rows, and so takes the second
    row from the wrong place. *)
Theorem C64_submatrix_vector_refuted :
  exists (r : v1) (a : v2) (b : v1) (m : mem Z) x y,
    nc a = n1 b /\ n1 r = nr a /\ blas_layout a /\ wf1 m (blk1 r) /\ disjoint21 (blk2 a) (blk1 r) /\ disjoint1 (blk1 r) (blk1 b) /\
    holds2 (K := Zring) m (blk2 a) x /\ holds1 (K := Zring) m (blk1 b) y /\
    getz (prod_mv_d (K := Zring) false r a b m) (p1 r + 1) = Some (sum (A := Zring) (fun k => x 1%nat k * y k)%Z 2) /\
    getz (prod_mv_d (K := Zring) true r a b m) (p1 r + 1) <> Some (sum (A := Zring) (fun k => x 1%nat k * y k)%Z 2) /\
    prod_mv_d (K := Zring) true r a b m <> None.
Proof.
  exists {| p1 := 14; st1 := 1; n1 := 2 |}, {| p2 := 0; s0 := 4; s1 := 1; nr := 2; nc := 2; row_order := true |}, {| p1 := 12; st1 := 1; n1 := 2 |},
    (mem_of [1;2;3;4; 5;6;7;8; 9;10;11;12; 1;1; 0;0]%Z), (fun i j => Z.of_nat (4 * i + j + 1)), (fun _ => 1%Z).
  split; [reflexivity|]. split; [reflexivity|]. split; [unfold blas_layout; cbn; lia|].
  split. { split; [intros [|[|i]] Hi; cbn in *; [discriminate|discriminate|lia]|sc; intros; lia]. }
  split. { intros i j k Hi Hj Hk. sc. lia. } split. { intros i j Hi Hj. sc. lia. }
  split. { intros [|[|i]] [|[|j]] Hi Hj; cbn in *; try lia; reflexivity. }
  split. { intros [|[|i]] Hi; cbn in *; try lia; reflexivity. }
  split; [vm_compute; reflexivity|]. split; vm_compute; discriminate.
Qed.

(** r = prod(v, B) where B is a part of a matrix in column order: the same
    mistake. *)
Theorem C64_vector_submatrix_refuted :
  exists (r a : v1) (b : v2) (m : mem Z) x y,
    n1 a = nr b /\ n1 r = nc b /\ blas_layout b /\ wf1 m (blk1 r) /\ disjoint21 (blk2 b) (blk1 r) /\ disjoint1 (blk1 r) (blk1 a) /\
    holds1 (K := Zring) m (blk1 a) x /\ holds2 (K := Zring) m (blk2 b) y /\
    getz (prod_vm_d (K := Zring) false r a b m) (p1 r + 1) = Some (sum (A := Zring) (fun k => x k * y k 1%nat)%Z 2) /\
    getz (prod_vm_d (K := Zring) true r a b m) (p1 r + 1) <> Some (sum (A := Zring) (fun k => x k * y k 1%nat)%Z 2) /\
    prod_vm_d (K := Zring) true r a b m <> None.
Proof.
  exists {| p1 := 14; st1 := 1; n1 := 2 |}, {| p1 := 12; st1 := 1; n1 := 2 |}, {| p2 := 0; s0 := 1; s1 := 4; nr := 2; nc := 2; row_order := false |},
    (mem_of [1;2;3;4; 5;6;7;8; 9;10;11;12; 1;1; 0;0]%Z), (fun _ => 1%Z), (fun i j => Z.of_nat (4 * j + i + 1)).
  split; [reflexivity|]. split; [reflexivity|]. split; [unfold blas_layout; cbn; lia|].
  split. { split; [intros [|[|i]] Hi; cbn in *; [discriminate|discriminate|lia]|sc; intros; lia]. }
  split. { intros i j k Hi Hj Hk. sc. lia. } split. { intros i j Hi Hj. sc. lia. }
  split. { intros [|[|i]] Hi; cbn in *; try lia; reflexivity. }
  split. { intros [|[|i]] [|[|j]] Hi Hj; cbn in *; try lia; reflexivity. }
  split; [vm_compute; reflexivity|]. split; vm_compute; discriminate.
Qed.

(** r = prod(A, v) with v read backwards and A in column order: BLAS takes the
    pointer of a vector with a negative increment as the end with the lowest
    address, the evaluator passes the first element's; the vector is
    read outside the view. *)
Theorem C64_reversed_vector_refuted :
  exists (r : v1) (a : v2) (b : v1) (m : mem Z) x y,
    nc a = n1 b /\ n1 r = nr a /\ blas_layout a /\ wf1 m (blk1 r) /\ disjoint21 (blk2 a) (blk1 r) /\ disjoint1 (blk1 r) (blk1 b) /\
    holds2 (K := Zring) m (blk2 a) x /\ holds1 (K := Zring) m (blk1 b) y /\
    getz (prod_mv_d (K := Zring) false r a b m) (p1 r) = Some (sum (A := Zring) (fun k => x 0%nat k * y k)%Z 2) /\
    getz (prod_mv_d (K := Zring) true r a b m) (p1 r) <> Some (sum (A := Zring) (fun k => x 0%nat k * y k)%Z 2).
Proof.
  exists {| p1 := 0; st1 := 1; n1 := 2 |}, {| p2 := 2; s0 := 1; s1 := 2; nr := 2; nc := 2; row_order := false |}, {| p1 := 7; st1 := -1; n1 := 2 |},
    (mem_of [0;0; 1;2;3;4; 5;6;7]%Z), (fun i j => Z.of_nat (2 * j + i + 1)), (fun i => (6 - Z.of_nat i)%Z).
  split; [reflexivity|]. split; [reflexivity|]. split; [unfold blas_layout; cbn; lia|].
  split. { split; [intros [|[|i]] Hi; cbn in *; [discriminate|discriminate|lia]|sc; intros; lia]. }
  split. { intros i j k Hi Hj Hk. sc. lia. } split. { intros i j Hi Hj. sc. lia. }
  split. { intros [|[|i]] [|[|j]] Hi Hj; cbn in *; try lia; reflexivity. }
  split. { intros [|[|i]] Hi; cbn in *; try lia; reflexivity. }
  split; [vm_compute; reflexivity|]. vm_compute; discriminate.
Qed.

(** r = prod(A, B) where r is made of every other column of a matrix: the
    minor stride of the result is not looked at, and elements which do not
    belong to r are overwritten. *)
Theorem C64_strided_result_refuted :
  exists (r a b : v2) (m : mem Z) w,
    nc a = nr b /\ nr r = nr a /\ nc r = nc b /\ blas_layout r /\ blas_layout a /\ blas_layout b /\ unit_stride a /\ unit_stride b /\
    wf2 m (blk2 r) /\ disjoint2 (blk2 r) (blk2 a) /\ disjoint2 (blk2 r) (blk2 b) /\
    (forall i j, i < nr r -> j < nc r -> addr2 (blk2 r) i j <> w) /\
    getz (prod_mm_d (K := Zring) (fun u => u) false r a b m) w = m w /\
    getz (prod_mm_d (K := Zring) (fun u => u) true r a b m) w <> m w.
Proof.
  exists {| p2 := 4; s0 := 4; s1 := 2; nr := 1; nc := 2; row_order := true |}, {| p2 := 0; s0 := 1; s1 := 1; nr := 1; nc := 1; row_order := true |},
    {| p2 := 1; s0 := 2; s1 := 1; nr := 1; nc := 2; row_order := true |}, (mem_of [2; 3;5; 0; 0;0;0;0]%Z), 5%Z.
  split; [reflexivity|]. split; [reflexivity|]. split; [reflexivity|].
  do 3 (split; [unfold blas_layout; cbn; lia|]). do 2 (split; [reflexivity|]).
  split. { split; [intros [|i] [|[|j]] Hi Hj; cbn in *; try lia; discriminate|sc; intros; lia]. }
  split. { intros i j i' j' Hi Hj Hi' Hj'. sc. lia. } split. { intros i j i' j' Hi Hj Hi' Hj'. sc. lia. }
  split. { sc. intros; lia. } split; [vm_compute; reflexivity|]. vm_compute; discriminate.
Qed.

(** r = prod(A, B) where the rows of A run upwards in memory (a sub-view with a
    negative stride): the leading dimension is negative and BLAS ends the
    program, although the generic evaluator computes the product. *)
Theorem C64_reversed_rows_refuted :
  exists (r a b : v2) (m : mem Z),
    nc a = nr b /\ nr r = nr a /\ nc r = nc b /\ unit_stride r /\ blas_layout r /\ blas_layout b /\ unit_stride a /\ unit_stride b /\
    wf2 m (blk2 r) /\ disjoint2 (blk2 r) (blk2 a) /\ disjoint2 (blk2 r) (blk2 b) /\
    prod_mm_d (K := Zring) (fun u => u) false r a b m <> None /\
    prod_mm_d (K := Zring) (fun u => u) true r a b m = None.
Proof.
  exists {| p2 := 3; s0 := 1; s1 := 1; nr := 2; nc := 1; row_order := true |}, {| p2 := 1; s0 := -1; s1 := 1; nr := 2; nc := 1; row_order := true |},
    {| p2 := 2; s0 := 1; s1 := 1; nr := 1; nc := 1; row_order := true |}, (mem_of [1;2;3;0;0]%Z).
  split; [reflexivity|]. split; [reflexivity|]. split; [reflexivity|]. split; [reflexivity|].
  do 2 (split; [unfold blas_layout; cbn; lia|]). do 2 (split; [reflexivity|]).
  split. { split; [intros [|[|i]] [|j] Hi Hj; cbn in *; try lia; discriminate|sc; intros; lia]. }
  split. { intros i j i' j' Hi Hj Hi' Hj'. sc. lia. } split. { intros i j i' j' Hi Hj Hi' Hj'. sc. lia. }
  split; vm_compute; [discriminate|reflexivity].
Qed.

(** ** Concrete cases: a 2x2 part of a 2x3 matrix in row order times a matrix
    in column order, the result in row order; and the outer product. *)
Definition ex_m : mem Z := mem_of [1;2;9; 3;4;9; 5;6;7;8; 0;0;0;0]%Z.
Definition ex_a : v2 := {| p2 := 0; s0 := 3; s1 := 1; nr := 2; nc := 2; row_order := true |}.
Definition ex_b : v2 := {| p2 := 6; s0 := 1; s1 := 2; nr := 2; nc := 2; row_order := false |}.
Definition ex_r : v2 := {| p2 := 10; s0 := 2; s1 := 1; nr := 2; nc := 2; row_order := true |}.
Definition ex_v : v1 := {| p1 := 6; st1 := 1; n1 := 2 |}.
Definition ex_w : v1 := {| p1 := 10; st1 := 1; n1 := 2 |}.
Example C64_matrix_matrix_applies :
  exists m', prod_mm_d (K := Zring) (fun u => u) true ex_r ex_a ex_b ex_m = Some m' /\
    only2 (K := Zring) (blk2 ex_r) ex_m m' /\ m' 10%Z = Some 17%Z /\ m' 11%Z = Some 23%Z /\ m' 12%Z = Some 39%Z /\ m' 13%Z = Some 53%Z.
Proof.
  destruct (C64_matrix_matrix_partial (K := Zring) (fun u => u) true ex_r ex_a ex_b (fun i j => Z.of_nat (2 * i + j + 1)) (fun i j => Z.of_nat (2 * j + i + 5)) ex_m) as (m' & E & O & H); try reflexivity.
  - intros _. split; [reflexivity|]. unfold blas_layout; cbn. lia.
  - split; [intros [|[|i]] [|[|j]] Hi Hj; cbn in *; try lia; discriminate|unfold ex_a, ex_b, ex_r, ex_v, ex_w; sc; intros; lia].
  - intros i j i' j' Hi Hj Hi' Hj'. unfold ex_a, ex_b, ex_r, ex_v, ex_w in *; sc. lia.
  - intros i j i' j' Hi Hj Hi' Hj'. unfold ex_a, ex_b, ex_r, ex_v, ex_w in *; sc. lia.
  - intros [|[|i]] [|[|j]] Hi Hj; cbn in *; try lia; reflexivity.
  - intros [|[|i]] [|[|j]] Hi Hj; cbn in *; try lia; reflexivity.
  - exists m'. split; [exact E|]. split; [exact O|].
    split; [exact (H 0 0 ltac:(cbn; lia) ltac:(cbn; lia))|]. split; [exact (H 0 1 ltac:(cbn; lia) ltac:(cbn; lia))|].
    split; [exact (H 1 0 ltac:(cbn; lia) ltac:(cbn; lia))|exact (H 1 1 ltac:(cbn; lia) ltac:(cbn; lia))].
Qed.
Example C64_gemp_applies :
  getz (gemp_d (K := Zring) (fun u => u) true mat_trans mat_ntrans 2%Z ex_a ex_b 3%Z ex_r ex_m) 10 = Some 46%Z.
Proof. vm_compute. reflexivity. Qed.
Example C64_matrix_vector_applies :
  exists m', prod_mv_d (K := Zring) true ex_w (tr2 ex_a) ex_v ex_m = Some m' /\ m' 10%Z = Some 23%Z /\ m' 11%Z = Some 34%Z.
Proof.
  destruct (C64_matrix_vector_partial (K := Zring) (fun u => u) true ex_w (tr2 ex_a) ex_v (fun i j => Z.of_nat (2 * j + i + 1)) (fun i => Z.of_nat (i + 5)) ex_m) as (m' & E & O & H); try reflexivity.
  - intros _. split; [cbn; lia|]. split; [cbn; lia|]. split; [unfold blas_layout; cbn; lia|discriminate].
  - split; [intros [|[|i]] Hi; cbn in *; try lia; discriminate|unfold ex_a, ex_b, ex_r, ex_v, ex_w; sc; intros; lia].
  - intros i j k Hi Hj Hk. unfold ex_a, ex_b, ex_r, ex_v, ex_w in *; sc. lia.
  - intros i j Hi Hj. unfold ex_a, ex_b, ex_r, ex_v, ex_w in *; sc. lia.
  - intros [|[|i]] [|[|j]] Hi Hj; cbn in *; try lia; reflexivity.
  - intros [|[|i]] Hi; cbn in *; try lia; reflexivity.
  - exists m'. split; [exact E|]. split; [exact (H 0 ltac:(cbn; lia))|exact (H 1 ltac:(cbn; lia))].
Qed.
Example C64_vector_matrix_applies :
  exists m', prod_vm_d (K := Zring) true ex_w ex_v ex_a ex_m = Some m' /\ m' 10%Z = Some 23%Z /\ m' 11%Z = Some 34%Z.
Proof.
  destruct (C64_vector_matrix_partial (K := Zring) (fun u => u) true ex_w ex_v ex_a (fun i => Z.of_nat (i + 5)) (fun i j => Z.of_nat (2 * i + j + 1)) ex_m) as (m' & E & O & H); try reflexivity.
  - intros _. split; [cbn; lia|]. split; [cbn; lia|]. split; [unfold blas_layout; cbn; lia|discriminate].
  - split; [intros [|[|i]] Hi; cbn in *; try lia; discriminate|unfold ex_a, ex_b, ex_r, ex_v, ex_w; sc; intros; lia].
  - intros i j Hi Hj. unfold ex_a, ex_b, ex_r, ex_v, ex_w in *; sc. lia.
  - intros i j k Hi Hj Hk. unfold ex_a, ex_b, ex_r, ex_v, ex_w in *; sc. lia.
  - intros [|[|i]] Hi; cbn in *; try lia; reflexivity.
  - intros [|[|i]] [|[|j]] Hi Hj; cbn in *; try lia; reflexivity.
  - exists m'. split; [exact E|]. split; [exact (H 0 ltac:(cbn; lia))|exact (H 1 ltac:(cbn; lia))].
Qed.
Example C64_outer_applies :
  exists m', outer_d (K := Zring) (fun u => u) true true ex_r 2%Z {| p1 := 0; st1 := 1; n1 := 2 |} ex_v ex_m = Some m' /\ m' 11%Z = Some 12%Z /\ m' 12%Z = Some 20%Z.
Proof.
  destruct (C64_outer (K := Zring) (fun u => u) true true ex_r 2%Z {| p1 := 0; st1 := 1; n1 := 2 |} ex_v (fun i => Z.of_nat (i + 1)) (fun i => Z.of_nat (i + 5)) ex_m) as (m' & E & O & H); try reflexivity.
  - apply Nat.lt_0_2.
  - apply Nat.lt_0_2.
  - split; reflexivity.
  - split; [intros [|[|i]] [|[|j]] Hi Hj; cbn in *; try lia; discriminate|unfold ex_a, ex_b, ex_r, ex_v, ex_w; sc; intros; lia].
  - intros i j k Hi Hj Hk. unfold ex_a, ex_b, ex_r, ex_v, ex_w in *; sc. lia.
  - intros i j k Hi Hj Hk. unfold ex_a, ex_b, ex_r, ex_v, ex_w in *; sc. lia.
  - intros [|[|i]] Hi; cbn in *; try lia; reflexivity.
  - intros [|[|i]] Hi; cbn in *; try lia; reflexivity.
  - exists m'. split; [exact E|]. split; [exact (H 0 1 ltac:(cbn; lia) ltac:(cbn; lia))|exact (H 1 0 ltac:(cbn; lia) ltac:(cbn; lia))].
Qed.
(** A vector read backwards: (4,3) . (5,6). *)
Example C64_dot_applies : dot_blas (K := Zring) (fun u => u) {| p1 := 4; st1 := -1; n1 := 2 |} ex_v ex_m = Some 38%Z.
Proof.
  rewrite (C64_dot (K := Zring) _ _ (fun i => (4 - Z.of_nat i)%Z) (fun i => Z.of_nat (i + 5))); [reflexivity|reflexivity| |].
  - intros [|[|i]] Hi; cbn in *; try lia; reflexivity.
  - intros [|[|i]] Hi; cbn in *; try lia; reflexivity.
Qed.

Print Assumptions C64_matrix_matrix_partial.
Print Assumptions C64_gemp_partial.
Print Assumptions C64_matrix_vector_partial.
Print Assumptions C64_vector_matrix_partial.
Print Assumptions C64_outer.
Print Assumptions C64_dot.
Print Assumptions C64_complex_dot_partial.
Print Assumptions C64_double_complex_dot_refuted.
Print Assumptions C64_submatrix_vector_refuted.
Print Assumptions C64_vector_submatrix_refuted.
Print Assumptions C64_reversed_vector_refuted.
Print Assumptions C64_strided_result_refuted.
Print Assumptions C64_reversed_rows_refuted.
