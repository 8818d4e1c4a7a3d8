(** C54: assigning one block to another copies every element. *)
From Coq Require Import ZArith List Lia Bool Arith.
From Verif Require Import Base Copy CopyProofs.
Import ListNotations.
Local Open Scope nat_scope.

(** Vector assignment, for every stride on either side and with or without
    conversion of the element type; the two sides share no element or are
    the same vector. *)
Theorem C54_vector_copy : forall (V : Type) (cv : option (V -> V)) (l r : dv1) (m : mem V),
  n1 l <= n1 r -> own1 m l -> readable1 m r -> apart1 l r \/ (p1 l = p1 r /\ s1 l = s1 r) ->
  exists m', copy1 cv l r m = Some m' /\
             assigned1 (match cv with None => fun x => x | Some f => f end) l r m m'.
Proof. exact @copy1_ok. Qed.

Definition mz (n : nat) : mem Z := mem_of (map Z.of_nat (seq 0 n)).
(** Every third cell from 0 receives cells 20, 19, 18, 17. *)
Example C54_vector_copy_example :
  let l := {| p1 := 0; s1 := 3; n1 := 4 |} in let r := {| p1 := 20; s1 := -1; n1 := 4 |} in
  own1 (mz 21) l /\ readable1 (mz 21) r /\ apart1 l r /\
  exists m', copy1 None l r (mz 21) = Some m' /\
    map m' [0; 1; 3; 6; 9; 10]%Z = map Some [20; 1; 19; 18; 17; 10]%Z.
Proof.
  cbv zeta; unfold own1, readable1, apart1, at1; cbn [p1 s1 n1 p2 s2_0 s2_1 n2_0 n2_1].
  repeat split; try (intros; lia).
  - intros i Hi. destruct i as [|[|[|[|]]]]; try lia; discriminate.
  - intros i Hi. destruct i as [|[|[|[|]]]]; try lia; discriminate.
  - eexists. split; [vm_compute; reflexivity|]. reflexivity.
Qed.

(** Matrix assignment between any two dimension orders and strides.  Missing
    from the full statement (that this holds for every pair of orders and
    strides): a row-major left-hand side and a column-major right-hand side
    that are neither both contiguous nor square, see
    C54_row_from_column_refuted. *)
Theorem C54_matrix_copy_partial : forall (V : Type) (lo ro : order2) (l r : dv2) (m : mem V),
  own2 m l -> readable2 m r -> conform2 l r -> apart2 l r -> 0 < n2_0 l -> 0 < n2_1 l ->
  (lo = Row2 -> ro = Col2 -> (s2_1 l = 1%Z /\ s2_0 r = 1%Z) \/ n2_0 l = n2_1 l) ->
  exists m', copy2 lo ro l r m = Some m' /\ assigned2 l r m m'.
Proof. exact @copy2_ok. Qed.

(** A 2x3 row-major matrix at 0 receives a column-major one at 6. *)
Example C54_matrix_copy_example :
  let l := {| p2 := 0; s2_0 := 3; s2_1 := 1; n2_0 := 2; n2_1 := 3 |} in
  let r := {| p2 := 6; s2_0 := 1; s2_1 := 2; n2_0 := 2; n2_1 := 3 |} in
  own2 (mz 12) l /\ readable2 (mz 12) r /\ conform2 l r /\ apart2 l r /\
  exists m', copy2 Row2 Col2 l r (mz 12) = Some m' /\
    map m' [0; 1; 2; 3; 4; 5; 6]%Z = map Some [6; 8; 10; 7; 9; 11; 6]%Z.
Proof.
  cbv zeta; unfold own2, readable2, conform2, apart2, at2; cbn [p1 s1 n1 p2 s2_0 s2_1 n2_0 n2_1].
  repeat split; try (intros; lia).
  - intros i j Hi Hj. destruct i as [|[|]], j as [|[|[|]]]; try lia; discriminate.
  - intros i j Hi Hj. destruct i as [|[|]], j as [|[|[|]]]; try lia; discriminate.
  - eexists. split; [vm_compute; reflexivity|]. reflexivity.
Qed.

(** Finding: assigning a column-major matrix to a row-major one that is not
    contiguous copies the transposed extents: elements are missed, cells
    outside the left-hand side are overwritten, and cells outside the
    right-hand side are read. *)
Theorem C54_row_from_column_refuted :
  exists (l r : dv2) (m m' : mem Z),
    own2 m l /\ readable2 m r /\ conform2 l r /\ apart2 l r /\
    copy2 Row2 Col2 l r m = Some m' /\
    m (at2 r 2 0) = Some 26%Z /\ m' (at2 l 2 0) = Some 16%Z /\
    (forall i j, i < n2_0 l -> j < n2_1 l -> at2 l i j <> 4%Z) /\ m 4%Z = Some 4%Z /\ m' 4%Z <> Some 4%Z /\
    copy2 Row2 Col2 l r (mz 30) = None.
Proof.
  exists {| p2 := 0; s2_0 := 8; s2_1 := 2; n2_0 := 3; n2_1 := 2 |}.
  exists {| p2 := 24; s2_0 := 1; s2_1 := 3; n2_0 := 3; n2_1 := 2 |}.
  exists (mz 40).
  cbv zeta; unfold own2, readable2, conform2, apart2, at2; cbn [p1 s1 n1 p2 s2_0 s2_1 n2_0 n2_1].
  eexists. refine (conj (conj _ _) (conj _ (conj _ (conj _ (conj _ (conj _ (conj _ (conj _ (conj _ (conj _ _))))))))));
    try (intros; lia).
  - intros i j Hi Hj. destruct i as [|[|[|]]], j as [|[|]]; try lia; discriminate.
  - intros i j Hi Hj. destruct i as [|[|[|]]], j as [|[|]]; try lia; discriminate.
  - vm_compute; reflexivity.
  - vm_compute; reflexivity.
  - vm_compute; reflexivity.
  - vm_compute; reflexivity.
  - vm_compute; discriminate.
  - vm_compute; reflexivity.
Qed.

(** Assigning a matrix to itself leaves it unchanged. *)
Theorem C54_matrix_self_copy : forall (V : Type) (o : order2) (l r : dv2) (m : mem V),
  own2 m l -> conform2 l r -> same2 l r ->
  exists m', copy2 o o l r m = Some m' /\ assigned2 l r m m'.
Proof. exact @copy2_self_ok. Qed.

(** Assigning a square matrix to its own transpose transposes it in place. *)
Theorem C54_transpose_in_place : forall (V : Type) (lo ro : order2) (l r : dv2) (m : mem V),
  lo <> ro -> own2 m l -> n2_0 l = n2_1 l -> conform2 l r ->
  p2 l = p2 r -> s2_0 l = s2_1 r -> s2_1 l = s2_0 r ->
  exists m', copy2 lo ro l r m = Some m' /\ assigned2 l r m m'.
Proof. exact @copy2_in_place_ok. Qed.

Example C54_transpose_in_place_example :
  let l := {| p2 := 1; s2_0 := 4; s2_1 := 1; n2_0 := 3; n2_1 := 3 |} in
  let r := {| p2 := 1; s2_0 := 1; s2_1 := 4; n2_0 := 3; n2_1 := 3 |} in
  own2 (mz 12) l /\ conform2 l r /\ same2 l l /\
  (exists m', copy2 Row2 Row2 l l (mz 12) = Some m' /\ map m' [1; 2; 5; 11]%Z = map Some [1; 2; 5; 11]%Z) /\
  exists m', copy2 Row2 Col2 l r (mz 12) = Some m' /\
    map m' [0; 1; 2; 3; 4; 5; 6; 7; 8; 9; 10; 11]%Z = map Some [0; 1; 5; 9; 4; 2; 6; 10; 8; 3; 7; 11]%Z.
Proof.
  cbv zeta; unfold own2, conform2, at2, same2; cbn [p1 s1 n1 p2 s2_0 s2_1 n2_0 n2_1].
  repeat split; try (intros; lia).
  - intros i j Hi Hj. destruct i as [|[|[|]]], j as [|[|[|]]]; try lia; discriminate.
  - eexists. split; vm_compute; reflexivity.
  - eexists. split; vm_compute; reflexivity.
Qed.

(** Split-complex matrices of the same order: both parts are copied. *)
Theorem C54_split_copy : forall (V : Type) (lr li rr ri : dv2) (m : mem V),
  own2 m lr -> own2 m li -> readable2 m rr -> readable2 m ri ->
  conform2 lr rr -> conform2 li ri -> conform2 lr li ->
  s2_0 li = s2_0 lr -> s2_1 li = s2_1 lr -> s2_0 ri = s2_0 rr -> s2_1 ri = s2_1 rr ->
  apart2 lr rr -> apart2 li ri -> apart2 lr ri -> apart2 lr li ->
  exists m', copy_split m (p2 lr) (p2 li) (s2_0 lr) (s2_1 lr) (p2 rr) (p2 ri) (s2_0 rr) (s2_1 rr) (n2_0 lr) (n2_1 lr) = Some m' /\
    (forall i j, i < n2_0 lr -> j < n2_1 lr -> m' (at2 lr i j) = m (at2 rr i j) /\ m' (at2 li i j) = m (at2 ri i j)) /\
    (forall a, (forall i j, i < n2_0 lr -> j < n2_1 lr -> a <> at2 lr i j /\ a <> at2 li i j) -> m' a = m a).
Proof. exact @copy_split_ok. Qed.

Example C54_split_copy_example :
  let b p := {| p2 := p; s2_0 := 2; s2_1 := 1; n2_0 := 2; n2_1 := 2 |} in
  own2 (mz 16) (b 0%Z) /\ own2 (mz 16) (b 4%Z) /\ readable2 (mz 16) (b 8%Z) /\ readable2 (mz 16) (b 12%Z) /\
  apart2 (b 0%Z) (b 8%Z) /\ apart2 (b 4%Z) (b 12%Z) /\ apart2 (b 0%Z) (b 12%Z) /\ apart2 (b 0%Z) (b 4%Z) /\
  exists m', copy_split (mz 16) 0 4 2 1 8 12 2 1 2 2 = Some m' /\ map m' [0; 3; 4; 7]%Z = map Some [8; 11; 12; 15]%Z.
Proof.
  cbv zeta; unfold own2, readable2, apart2, at2; cbn [p1 s1 n1 p2 s2_0 s2_1 n2_0 n2_1].
  repeat split; try (intros; lia).
  - intros i j Hi Hj. destruct i as [|[|]], j as [|[|]]; try lia; discriminate.
  - intros i j Hi Hj. destruct i as [|[|]], j as [|[|]]; try lia; discriminate.
  - intros i j Hi Hj. destruct i as [|[|]], j as [|[|]]; try lia; discriminate.
  - intros i j Hi Hj. destruct i as [|[|]], j as [|[|]]; try lia; discriminate.
  - eexists. split; vm_compute; reflexivity.
Qed.

Print Assumptions C54_vector_copy.
Print Assumptions C54_matrix_copy_partial.
Print Assumptions C54_row_from_column_refuted.
Print Assumptions C54_matrix_self_copy.
Print Assumptions C54_transpose_in_place.
Print Assumptions C54_split_copy.
