(** C74: products computed by a C-VSIPL library. *)
From Coq Require Import ZArith List Lia Bool Arith.
From Verif Require Import Base Freqswap Conv Matvec MatvecProofs Blas BlasProofs CVsip CVsipProofs.
Import ListNotations.
Local Open Scope nat_scope.

Section P.
Context {K : CRing} (conj : K -> K) (L : library K).
Local Open Scope cr_scope.

(** [documented conj L false]: [L] is any C-VSIPL library that does what the standard says and takes
    blocks that were not admitted.  [ct]: BLAS is available for these operands; [cv]: C-VSIPL is.  *)

(** r = prod(A, B), whichever of BLAS, C-VSIPL and the built-in code runs.
    Missing (in all theorems of this file): empty views and views with a negative stride when
    C-VSIPL is available, and libraries that insist on admitted blocks (see the refuted
    theorems); and what is missing of C64 when BLAS is. *)
Theorem C74_matrix_matrix_partial ct cv (r a b : v2) (x y : nat -> nat -> K) (m : mem K) :
  documented conj L false ->
  nc a = nr b -> nr r = nr a -> nc r = nc b ->
  (ct = true -> unit_stride r /\ blas_layout r /\ blas_layout a /\ blas_layout b) ->
  (cv = true -> upward2 r /\ upward2 a /\ upward2 b) ->
  wf2 m (blk2 r) -> disjoint2 (blk2 r) (blk2 a) -> disjoint2 (blk2 r) (blk2 b) ->
  holds2 m (blk2 a) x -> holds2 m (blk2 b) y ->
  exists m', prod_mm_c conj L ct cv r a b m = Some m' /\ only2 (blk2 r) m m' /\
    holds2 m' (blk2 r) (fun i j => sum (fun k => x i k * y k j) (nc a)).
Proof. intros D. exact (prod_mm_c_ok conj L D ct cv r a b x y m). Qed.

(** gemp(alpha, A, B, beta, C) with all four operations on either operand. *)
Theorem C74_gemp_partial ct cv opA opB alpha (A B : v2) beta (C : v2) a b c m :
  documented conj L false ->
  op_rows opA (blk2 A) = nr C -> op_cols opB (blk2 B) = nc C -> op_cols opA (blk2 A) = op_rows opB (blk2 B) ->
  (ct = true -> unit_stride C /\ blas_layout C /\ blas_layout A /\ blas_layout B) ->
  (cv = true -> upward2 C /\ upward2 A /\ upward2 B) ->
  wf2 m (blk2 C) -> disjoint2 (blk2 C) (blk2 A) -> disjoint2 (blk2 C) (blk2 B) ->
  holds2 m (blk2 A) a -> holds2 m (blk2 B) b -> holds2 m (blk2 C) c ->
  exists m', gemp_c conj L ct cv opA opB alpha A B beta C m = Some m' /\ only2 (blk2 C) m m' /\
    holds2 m' (blk2 C) (fun i j =>
      alpha * sum (fun k => op_elem conj opA a i k * op_elem conj opB b k j) (op_cols opA (blk2 A)) + beta * c i j).
Proof. intros D. exact (gemp_c_ok conj L D ct cv opA opB alpha A B beta C a b c m). Qed.

(** r = prod(A, v); [s]: v is complex with its real and imaginary parts stored apart. *)
Theorem C74_matrix_vector_partial ct cv s (r : v1) (a : v2) (b : v1) (x : nat -> nat -> K) (y : nat -> K) (m : mem K) :
  documented conj L false ->
  nc a = n1 b -> n1 r = nr a ->
  (ct = true -> (0 < st1 r)%Z /\ (0 < st1 b)%Z /\ blas_layout a /\ (row_order a = true -> s0 a = Z.of_nat (nc a))) ->
  (cv = true -> upward1 r /\ upward2 a /\ upward1 b /\ (s = true -> st1 b = 1%Z)) ->
  wf1 m (blk1 r) -> disjoint21 (blk2 a) (blk1 r) -> disjoint1 (blk1 r) (blk1 b) ->
  holds2 m (blk2 a) x -> holds1 m (blk1 b) y ->
  exists m', prod_mv_c L ct cv s r a b m = Some m' /\ only1 (blk1 r) m m' /\
    holds1 m' (blk1 r) (fun i => sum (fun k => x i k * y k) (nc a)).
Proof. intros D. exact (prod_mv_c_ok conj L D ct cv s r a b x y m). Qed.

(** r = prod(v, B). *)
Theorem C74_vector_matrix_partial ct cv s (r a : v1) (b : v2) (x : nat -> K) (y : nat -> nat -> K) (m : mem K) :
  documented conj L false ->
  n1 a = nr b -> n1 r = nc b ->
  (ct = true -> (0 < st1 r)%Z /\ (0 < st1 a)%Z /\ blas_layout b /\ (row_order b = false -> s1 b = Z.of_nat (nr b))) ->
  (cv = true -> upward1 r /\ upward1 a /\ upward2 b /\ (s = true -> st1 a = 1%Z)) ->
  wf1 m (blk1 r) -> disjoint1 (blk1 r) (blk1 a) -> disjoint21 (blk2 b) (blk1 r) ->
  holds1 m (blk1 a) x -> holds2 m (blk2 b) y ->
  exists m', prod_vm_c L ct cv s r a b m = Some m' /\ only1 (blk1 r) m m' /\
    holds1 m' (blk1 r) (fun j => sum (fun k => x k * y k j) (n1 a)).
Proof. intros D. exact (prod_vm_c_ok conj L D ct cv s r a b x y m). Qed.

(** outer(alpha, v, w). *)
Theorem C74_outer_partial ct cv cplx sa sb (r : v2) alpha (a b : v1) (x y : nat -> K) (m : mem K) :
  documented conj L false ->
  (forall u w, conj (u * w) = conj u * conj w) -> (forall u, conj (conj u) = u) ->
  n1 a = nr r -> n1 b = nc r -> (0 < nr r)%nat -> (0 < nc r)%nat -> dense2 r ->
  (cv = true -> upward2 r /\ upward1 a /\ upward1 b /\ (sa = true -> st1 a = 1%Z) /\ (sb = true -> st1 b = 1%Z)) ->
  wf2 m (blk2 r) -> disjoint21 (blk2 r) (blk1 a) -> disjoint21 (blk2 r) (blk1 b) ->
  holds1 m (blk1 a) x -> holds1 m (blk1 b) y ->
  exists m', outer_c conj L ct cv cplx sa sb r alpha a b m = Some m' /\ only2 (blk2 r) m m' /\
    holds2 m' (blk2 r) (fun i j => alpha * x i * (if cplx then conj (y j) else y j)).
Proof. intros D. exact (outer_c_ok conj L D ct cv cplx sa sb r alpha a b x y m). Qed.

(** dot(v, w) and cvjdot(v, w) through C-VSIPL. *)
Theorem C74_dot_partial sa sb (a b : v1) (x y : nat -> K) (m : mem K) :
  documented conj L false ->
  upward1 a -> upward1 b -> (sa = true -> st1 a = 1%Z) -> (sb = true -> st1 b = 1%Z) ->
  n1 a = n1 b -> holds1 m (blk1 a) x -> holds1 m (blk1 b) y ->
  dot_cv L sa sb a b m = Some (sum (fun i => x i * y i) (n1 a)) /\
  cvjdot_cv L sa sb a b m = Some (sum (fun i => x i * conj (y i)) (n1 a)).
Proof. intros D. exact (dot_cv_ok conj L D sa sb a b x y m). Qed.
End P.

(** There are libraries that do what the standard says, also among those that insist on admitted
    blocks. *)
Theorem C74_documented_ex {K : CRing} (conj : K -> K) strict : exists L, documented conj L strict.
Proof. exists (reference conj strict). apply reference_documented. Qed.

(** Concrete cases: part of a 2x4 matrix times a vector with stride 2, where BLAS is not valid... *)
Example C74_matrix_vector_ex :
  let a := {| p2 := 0; s0 := 4; s1 := 2; nr := 2; nc := 2; row_order := true |} in
  let b := {| p1 := 8; st1 := 2; n1 := 2 |} in let r := {| p1 := 12; st1 := 1; n1 := 2 |} in
  let m := mem_of [1;2;3;4; 5;6;7;8; 1;0;10;0; 0;0]%Z in
  upward1 r /\ upward2 a /\ upward1 b /\ mv_rt a b = false /\
  match prod_mv_c (K := Zring) (reference (K := Zring) (fun z => z) false) true true false r a b m with
  | Some m' => m' 12%Z = Some 31%Z /\ m' 13%Z = Some 75%Z | None => False end /\
  match prod_vm_c (K := Zring) (reference (K := Zring) (fun z => z) false) true true false r b a m with
  | Some m' => m' 12%Z = Some 51%Z /\ m' 13%Z = Some 73%Z | None => False end.
Proof. cbv zeta. split; [|split; [|split; [|split; [reflexivity|split]]]]; try (unfold upward1, upward2, W64; cbn; lia); vm_compute; auto. Qed.
(** ... products of matrices, and the same through gemp with a transposed operand... *)
Example C74_matrix_matrix_ex :
  let a := {| p2 := 0; s0 := 4; s1 := 2; nr := 2; nc := 2; row_order := true |} in
  let r := {| p2 := 8; s0 := 1; s1 := 2; nr := 2; nc := 2; row_order := false |} in
  let m := mem_of [1;2;3;4; 5;6;7;8; 1;2;3;4]%Z in
  upward2 a /\ upward2 r /\ mm_rt a a = false /\
  match prod_mm_c (K := Zring) (fun z => z) (reference (K := Zring) (fun z => z) false) true true r a a m with
  | Some m' => map m' [8;9;10;11]%Z = [Some 16; Some 40; Some 24; Some 64]%Z | None => False end /\
  match gemp_c (K := Zring) (fun z => z) (reference (K := Zring) (fun z => z) false) true true mat_trans mat_ntrans 1%Z a a 100%Z r m with
  | Some m' => map m' [8;9;10;11]%Z = [Some 126; Some 238; Some 338; Some 458]%Z | None => False end.
Proof. cbv zeta. split; [|split; [|split; [reflexivity|split]]]; try (unfold upward2, W64; cbn; lia); vm_compute; auto. Qed.
(** ... and outer and dot products of vectors with a stride. *)
Example C74_outer_ex :
  let a := {| p1 := 0; st1 := 2; n1 := 2 |} in let b := {| p1 := 1; st1 := 2; n1 := 2 |} in
  let r := {| p2 := 4; s0 := 2; s1 := 1; nr := 2; nc := 2; row_order := true |} in
  let m := mem_of [1;2;3;4; 0;0;0;0]%Z in
  dense2 r /\ upward2 r /\ upward1 a /\ upward1 b /\ outer_rt a b = false /\
  match outer_c (K := Zring) (fun z => z) (reference (K := Zring) (fun z => z) false) true true true false false r 10%Z a b m with
  | Some m' => map m' [4;5;6;7]%Z = [Some 20; Some 40; Some 60; Some 120]%Z | None => False end /\
  dot_cv (K := Zring) (reference (K := Zring) (fun z => z) false) false false a b m = Some 14%Z.
Proof. cbv zeta. split; [unfold dense2, unit_stride; cbn; auto|]. split; [|split; [|split; [|split; [reflexivity|split]]]]; try (unfold upward1, upward2, W64; cbn; lia); vm_compute; auto. Qed.

(** A reversed vector (negative stride): the block bound starts at the view's first element and has
    a size near 2^64 (or 0), the other elements lie before its start.  A
    library that checks this, as the standard allows, fails, while the built-in code computes the
    product. *)
Theorem C74_reversed_refuted :
  exists (L : library Zring) (a b : v1) (m : mem Z), documented (K := Zring) (fun z => z) L false /\
    n1 a = 2 /\ n1 b = 2 /\ wf1 m (blk1 a) /\ wf1 m (blk1 b) /\
    dot_cv (K := Zring) L false false a b m = None /\
    dot (K := Zring) (plain1 (blk1 a)) (plain1 (blk1 b)) m = Some 10%Z.
Proof.
  exists (reference (K := Zring) (fun z => z) false), {| p1 := 1; st1 := -1; n1 := 2 |}, {| p1 := 2; st1 := 1; n1 := 2 |}, (mem_of [1;2;3;4]%Z).
  split; [apply (reference_documented (K := Zring))|]. split; [reflexivity|]. split; [reflexivity|].
  split; [split; [intros [|[|i]] Hi; cbn in *; [discriminate|discriminate|lia]|intros i k _ _; cbn [addr1 blk1 p1 st1]; lia]|].
  split; [split; [intros [|[|i]] Hi; cbn in *; [discriminate|discriminate|lia]|intros i k _ _; cbn [addr1 blk1 p1 st1]; lia]|].
  split; vm_compute; reflexivity.
Qed.

(** A complex vector in split storage with a stride other than 1 (a column, say, or every second
    element): the view handed to the library as an operand ignores the stride, whatever the library.
    Here the dot product with itself of every second element of (1, 2, 3) is 1 + 4 instead
    of 1 + 9. *)
Theorem C74_split_stride_refuted :
  exists (a : v1) (m : mem Z), upward1 a /\ wf1 m (blk1 a) /\
    dot (K := Zring) (plain1 (blk1 a)) (plain1 (blk1 a)) m = Some 10%Z /\
    forall L : library Zring, documented (K := Zring) (fun z => z) L false ->
      dot_cv (K := Zring) L true true a a m = Some 5%Z.
Proof.
  exists {| p1 := 0; st1 := 2; n1 := 2 |}, (mem_of [1;2;3]%Z). split; [unfold upward1, W64; cbn; lia|].
  split; [split; [intros [|[|i]] Hi; cbn in *; [discriminate|discriminate|lia]|intros i k _ _; cbn [addr1 blk1 p1 st1]; lia]|].
  split; [reflexivity|]. intros L D. unfold dot_cv. cbn [n1 Nat.eqb const_view1 p1 st1].
  assert (U : usable1 false (view1_dense 0 2)). { split; [cbn; lia|]. split; [cbn; lia|discriminate]. }
  assert (H : holds1 (K := Zring) (mem_of [1;2;3]%Z) (vec (view1_dense 0 2)) (fun i => Z.of_nat i + 1)%Z). { intros [|[|i]] Hi; cbn in *; try lia; reflexivity. }
  rewrite (doc_dot _ _ _ D _ _ _ _ _ U U eq_refl H H). reflexivity.
Qed.

(** The blocks bound are never admitted.  A library that insists on that, as the standard does, computes
    none of the products, for no operands. *)
Theorem C74_not_admitted_refuted :
  exists L : library Zring, documented (K := Zring) (fun z => z) L true /\
    (forall sa sb a b m, dot_cv (K := Zring) L sa sb a b m = None) /\
    (forall r a b m, mm_cv (K := Zring) L r a b m = None) /\
    (forall s r a b m, mv_cv (K := Zring) L s r a b m = None) /\
    (forall s r a b m, vm_cv (K := Zring) L s r a b m = None).
Proof.
  exists (reference (K := Zring) (fun z => z) true). split; [apply (reference_documented (K := Zring))|].
  assert (N1 : forall s p o st n, ok1 true (const_view1 s p o st n) = false) by (intros [] p o st n; unfold ok1; cbn [const_view1 view1_dense view1 cv_blk blockbind cb_admitted negb orb]; apply andb_false_r).
  assert (N2 : forall p o sr nr sc nc, ok2 true (view2 p o sr nr sc nc) = false) by (intros; unfold ok2; cbn [view2 cm_blk blockbind cb_admitted negb orb]; apply andb_false_r).
  split; [|split; [|split]].
  - intros. unfold dot_cv. destruct (Nat.eqb _ _); [|reflexivity]. cbn [vdot reference]. rewrite N1. reflexivity.
  - intros. unfold mm_cv, whole. cbn [mprod reference]. rewrite N2. reflexivity.
  - intros. unfold mv_cv. destruct (Nat.eqb _ _); [|reflexivity]. cbn [mvprod reference]. rewrite N2. reflexivity.
  - intros. unfold vm_cv. destruct (Nat.eqb _ _); [|reflexivity]. cbn [mvprod reference]. rewrite N2. reflexivity.
Qed.

Print Assumptions C74_matrix_matrix_partial.
Print Assumptions C74_gemp_partial.
Print Assumptions C74_matrix_vector_partial.
Print Assumptions C74_vector_matrix_partial.
Print Assumptions C74_outer_partial.
Print Assumptions C74_dot_partial.
Print Assumptions C74_documented_ex.
Print Assumptions C74_reversed_refuted.
Print Assumptions C74_split_stride_refuted.
Print Assumptions C74_not_admitted_refuted.
