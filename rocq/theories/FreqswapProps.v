(** C41: frequency swap. *)
From Coq Require Import ZArith List Lia Bool Arith.
From Verif Require Import Base Freqswap FreqswapProofs.
Import ListNotations.
Local Open Scope nat_scope.

(** Element [i] goes to (i + n/2) mod n; nothing outside the output changes;
    in place or into another vector. *)
Theorem C41_vector (V : Type) (out inp : block1) (m : mem V) : wf1 m out -> wf1 m inp -> len out = len inp -> 0 < len inp ->
  out = inp \/ disjoint1 inp out -> exists m', swap1 out inp m = Some m' /\ swapped1 out inp m m'.
Proof. exact (vector_ok out inp m). Qed.
(** Matrices: the same in both dimensions, in place ... *)
Theorem C41_matrix_in_place (V : Type) (b : block2) (m : mem V) : wf2 m b -> 0 < rows b -> 0 < cols b ->
  exists m', swap2 b b m = Some m' /\ swapped2 b b m m'.
Proof. exact (matrix_in_place b m). Qed.
(** ... and into another matrix. *)
Theorem C41_matrix_out_of_place (V : Type) (out inp : block2) (m : mem V) : wf2 m out -> wf2 m inp ->
  rows out = rows inp -> cols out = cols inp -> blk inp <> blk out -> disjoint2 inp out ->
  exists m', swap2 out inp m = Some m' /\ swapped2 out inp m m'.
Proof. exact (matrix_out_of_place out inp m). Qed.
(** Twice is the identity for even sizes. *)
Theorem C41_vector_twice (V : Type) (b : block1) (m : mem V) : wf1 m b -> 0 < len b -> len b mod 2 = 0 ->
  exists m1 m2, swap1 b b m = Some m1 /\ swap1 b b m1 = Some m2 /\ forall a, m2 a = m a.
Proof. exact (twice_vector b m). Qed.
Theorem C41_matrix_twice (V : Type) (b : block2) (m : mem V) : wf2 m b -> 0 < rows b -> 0 < cols b -> rows b mod 2 = 0 -> cols b mod 2 = 0 ->
  exists m1 m2, swap2 b b m = Some m1 /\ swap2 b b m1 = Some m2 /\
    (forall i j, i < rows b -> j < cols b -> m2 (addr2 b i j) = m (addr2 b i j)) /\
    (forall a, (forall i j, i < rows b -> j < cols b -> a <> addr2 b i j) -> m2 a = m a).
Proof. exact (twice_matrix b m). Qed.
(** Swapping within every row only. *)
Theorem C41_axis_row (V : Type) (out inp : block2) (m : mem V) : wf2 m out -> wf2 m inp -> rows out = rows inp -> cols out = cols inp -> 0 < cols inp ->
  out = inp \/ disjoint2 inp out -> exists m', swap_axis true out inp m = Some m' /\ swapped_rows out inp m m'.
Proof. exact (axis_row out inp m). Qed.
(** Swapping within every column only: square matrices. *)
Theorem C41_axis_col_square (V : Type) (out inp : block2) (m : mem V) : wf2 m out -> wf2 m inp -> rows out = rows inp -> cols out = cols inp ->
  rows inp = cols inp -> 0 < cols inp -> out = inp \/ disjoint2 inp out -> exists m', swap_axis false out inp m = Some m' /\ swapped_cols out inp m m'.
Proof. exact (axis_col out inp m). Qed.

(** A row-major matrix at address 0. *)
Definition dense (r c k : nat) : block2 := {| rows := r; cols := c; addr2 := fun i j => Z.of_nat (i * c + j); blk := k |}.
Lemma dense_wf {V} r c k (l : list V) : r * c <= length l -> wf2 (mem_of l) (dense r c k).
Proof.
  intros L. split; cbn.
  - intros i j Hi Hj. destruct (mem_of_some l (Z.of_nat (i * c + j))) as [v ->]; [|discriminate].
    assert (i * c + c <= r * c) by (rewrite <- Nat.mul_succ_l; apply Nat.mul_le_mono_r; lia). lia.
  - intros i j i' j' Hi Hj Hi' Hj' E. apply Nat2Z.inj in E.
    pose proof (Nat.div_add_l i c j ltac:(lia)) as D1. pose proof (Nat.div_add_l i' c j' ltac:(lia)) as D2. rewrite (Nat.div_small j) in D1 by lia. rewrite (Nat.div_small j') in D2 by lia. rewrite E in D1. assert (i = i') by lia. subst i'. lia.
Qed.
(** Non-square matrices: columns beyond the number of rows are not swapped,
    and a matrix with more rows than columns is accessed out of range. *)
Theorem C41_axis_col_refuted :
  (exists m m' : mem Z, wf2 m (dense 2 3 0) /\ swap_axis false (dense 2 3 0) (dense 2 3 0) m = Some m' /\ ~ swapped_cols (dense 2 3 0) (dense 2 3 0) m m') /\
  (exists m : mem Z, wf2 m (dense 3 2 0) /\ swap_axis false (dense 3 2 0) (dense 3 2 0) m = None).
Proof.
  split.
  - exists (mem_of [1;2;3;4;5;6]%Z). eexists. split; [apply dense_wf; cbn; lia|]. split; [vm_compute; reflexivity|].
    intros [H _]. specialize (H 0 2 ltac:(cbn; lia) ltac:(cbn; lia)). vm_compute in H. discriminate.
  - exists (mem_of [1;2;3;4;5;6]%Z). split; [apply dense_wf; cbn; lia|]. vm_compute. reflexivity.
Qed.
(** Two block objects for the same elements (e.g. two equal subviews) are
    not recognised as the same block: for odd sizes the result is wrong. *)
Theorem C41_equal_subviews_refuted : exists m m' : mem Z, wf2 m (dense 3 3 0) /\ swap2 (dense 3 3 0) (dense 3 3 1) m = Some m' /\ ~ swapped2 (dense 3 3 0) (dense 3 3 1) m m'.
Proof.
  exists (mem_of [1;2;3;4;5;6;7;8;9]%Z). eexists. split; [apply dense_wf; cbn; lia|]. split; [vm_compute; reflexivity|].
  intros [H _]. specialize (H 1 1 ltac:(cbn; lia) ltac:(cbn; lia)). vm_compute in H. discriminate.
Qed.
(** An empty vector is read at index 0. *)
Theorem C41_empty_refuted : forall (V : Type) (b : block1) (m : mem V), len b = 0 -> swap1 b b m = None.
Proof. intros V b m E. unfold swap1, get1. rewrite E. reflexivity. Qed.

Example C41_vector_example : let b := {| len := 5; addr1 := fun i => (2 * Z.of_nat i)%Z |} in
  wf1 (mem_of [1;0;2;0;3;0;4;0;5]%Z) b /\
  exists m', swap1 b b (mem_of [1;0;2;0;3;0;4;0;5]%Z) = Some m' /\ map m' [0;1;2;3;4;5;6;7;8]%Z = map Some [4;0;5;0;1;0;2;0;3]%Z.
Proof.
  split; [split; cbn [addr1 len]; intros; [|lia]|eexists; split; vm_compute; reflexivity].
  match goal with |- mem_of ?l ?a <> None => destruct (mem_of_some l a) as [v ->]; [cbn [length]; lia|discriminate] end.
Qed.
Example C41_matrix_example : wf2 (mem_of [1;2;3;4;5;6;7;8;9;10;11;12]%Z) (dense 3 4 0) /\
  exists m', swap2 (dense 3 4 0) (dense 3 4 0) (mem_of [1;2;3;4;5;6;7;8;9;10;11;12]%Z) = Some m' /\
    map m' [0;1;2;3;4;5;6;7;8;9;10;11]%Z = map Some [11;12;9;10;3;4;1;2;7;8;5;6]%Z.
Proof. split; [apply dense_wf; cbn; lia|]. eexists. split; vm_compute; reflexivity. Qed.

Print Assumptions C41_vector.
Print Assumptions C41_matrix_in_place.
Print Assumptions C41_matrix_out_of_place.
Print Assumptions C41_vector_twice.
Print Assumptions C41_matrix_twice.
Print Assumptions C41_axis_row.
Print Assumptions C41_axis_col_square.
Print Assumptions C41_axis_col_refuted.
Print Assumptions C41_equal_subviews_refuted.
Print Assumptions C41_empty_refuted.
