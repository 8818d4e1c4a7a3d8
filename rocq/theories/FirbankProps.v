(** Theorems about the banks of FIR filters. *)
From Coq Require Import ZArith List Bool Arith Lia Reals.
From Verif Require Import Base Dft DftProofs DftInv DftExamples DftReals DftRealsProofs Fir FirProofs Firbank FirbankProofs.
Import ListNotations.
Local Open Scope nat_scope.

(** Built of Fir objects, the bank passes row i of the inputs through the coefficients in row i of the filters, from zero history. *)
Theorem C103_full : forall (R : CRing) M N K (inputs filters : nat -> nat -> Cr R) out loops,
  1 < K -> 0 < N -> K <= N + 1 -> 0 < loops ->
  exists out', full M N K inputs filters loops out = Some out' /\
    forall i n, i < M -> n < N -> out' i n = filtered K (filters i) (inputs i) n.
Proof. intros R M N K inputs filters out loops. apply full_rows. Qed.
Example C103_full_ex :
  option_map (fun o => map (o 1) [0; 1; 2]) (full (R := Zring) 2 3 2 (fun i n => (Z.of_nat n + 1, 0)%Z) (fun i k => (Z.of_nat (i + 1 + k), 1)%Z) 1 (fun _ _ => (9, 9)%Z)) =
  Some [(2, 1); (7, 3); (12, 5)]%Z.
Proof. vm_compute. reflexivity. Qed.

(** Written as one expression with transforms of all rows, it passes row i through row i of the filters as if the row were continued
    periodically; so wherever all coefficients meet samples of the row, the result is that of the Fir objects. *)
Theorem C103_expression : forall (R : CRing) (t : trig R) M N K (inputs filters : nat -> nat -> Cr R) out loops sc,
  exact R t N -> 0 < N -> K <= N -> 0 < loops -> (nat_r R N * ofR R sc)%cr = (1%cr : Cr R) ->
  exists out', expr t M N K inputs filters sc loops out = Some out' /\
    forall i n, i < M -> n < N -> out' i n = filtered_round N K (filters i) (inputs i) n /\
      (K <= n + 1 -> out' i n = filtered K (filters i) (inputs i) n).
Proof.
  intros R t M N K inputs filters out loops sc ex HN HK Hl Hs.
  destruct (expr_rows t M N K inputs filters out sc loops ex HN HK Hl Hs) as (out' & E & H). exists out'. split; [exact E|]. intros i n Hi Hn.
  split; [apply H; assumption|]. intros Hk. rewrite H by assumption. apply round_middle; assumption.
Qed.
(** Over the real numbers, with sines and cosines and the scale 1 / N, for every length. *)
Theorem C103_expression_reals : forall M N K (inputs filters : nat -> nat -> Cr Rring) out loops, 0 < N -> K <= N -> 0 < loops ->
  exists out', expr (R := Rring) rtrig M N K inputs filters (/ INR N)%R loops out = Some out' /\
    forall i n, i < M -> n < N -> out' i n = filtered_round N K (filters i) (inputs i) n /\
      (K <= n + 1 -> out' i n = filtered K (filters i) (inputs i) n).
Proof.
  intros M N K inputs filters out loops HN HK Hl. apply C103_expression; try assumption; [apply exact_reals; exact HN|].
  destruct (nr_real Rring N) as [k E]. rewrite E, <- ofR_mul. pose proof (nr_INR N) as E'. rewrite E in E'. cbn in E'. subst k.
  change (ofR Rring (INR N * / INR N)%R = ofR Rring 1%R). f_equal. apply Rinv_r, not_0_INR. lia.
Qed.
Example C103_expression_ex : exact Zring ztrig 1 /\ (nat_r Zring 1 * ofR Zring 1%Z)%cr = (1%cr : Cr Zring) /\
  option_map (fun o => map (fun i => o i 0) [0; 1]) (expr (R := Zring) ztrig 2 1 1 (fun i n => (3, 1)%Z) (fun i k => (Z.of_nat i + 2, 0)%Z) 1%Z 1 (fun _ _ => (9, 9)%Z)) = Some [(6, 2); (9, 3)]%Z.
Proof. split; [apply ztrig1|]. split; vm_compute; reflexivity. Qed.

(** Defect: written with transforms row by row, every row is passed through the first filter of the bank: the product is always
    taken with row 0 of the responses. *)
Theorem C103_row_by_row_refuted : forall (R : CRing) (t : trig R) M N K (inputs filters : nat -> nat -> Cr R) out loops sc,
  exact R t N -> 0 < N -> K <= N -> 0 < loops -> (nat_r R N * ofR R sc)%cr = (1%cr : Cr R) ->
  exists out', fast t M N K inputs filters sc loops out = Some out' /\
    forall i n, i < M -> n < N -> out' i n = filtered_round N K (filters 0) (inputs i) n.
Proof. intros R t M N K inputs filters out loops sc. apply fast_rows. Qed.
(** Defect: two filters with different coefficients give the same output. *)
Theorem C103_wrong_filter_refuted : exists inputs filters out', exact Zring ztrig 1 /\ (nat_r Zring 1 * ofR Zring 1%Z)%cr = (1%cr : Cr Zring) /\
  fast (R := Zring) ztrig 2 1 1 inputs filters 1%Z 1 (fun _ _ => (9, 9)%Z) = Some out' /\
  out' 1 0 = (6, 2)%Z /\ filtered (R := Zring) 1 (filters 1) (inputs 1) 0 = (9, 3)%Z.
Proof.
  exists (fun i n => (3, 1)%Z), (fun i k => (Z.of_nat i + 2, 0)%Z). eexists. split; [apply ztrig1|]. split; [vm_compute; reflexivity|].
  split; [reflexivity|]. split; vm_compute; reflexivity.
Qed.
(** What is left: a bank whose filters are all the same. *)
Theorem C103_row_by_row_partial : forall (R : CRing) (t : trig R) M N K (inputs filters : nat -> nat -> Cr R) out loops sc,
  exact R t N -> 0 < N -> K <= N -> 0 < loops -> (nat_r R N * ofR R sc)%cr = (1%cr : Cr R) -> (forall i k, i < M -> k < K -> filters i k = filters 0 k) ->
  exists out', fast t M N K inputs filters sc loops out = Some out' /\
    forall i n, i < M -> n < N -> K <= n + 1 -> out' i n = filtered K (filters i) (inputs i) n.
Proof.
  intros R t M N K inputs filters out loops sc ex HN HK Hl Hs Hf.
  destruct (fast_rows t M N K inputs filters out sc loops ex HN HK Hl Hs) as (out' & E & H). exists out'. split; [exact E|]. intros i n Hi Hn Hk.
  rewrite H by assumption. rewrite round_middle by assumption. unfold filtered. apply (sum_ext (Cr R)). intros k Hk'. rewrite (Hf i k) by assumption. reflexivity.
Qed.
Example C103_row_by_row_ex :
  option_map (fun o => map (fun i => o i 0) [0; 1]) (fast (R := Zring) ztrig 2 1 1 (fun i n => (Z.of_nat i + 3, 1)%Z) (fun i k => (2, 0)%Z) 1%Z 3 (fun _ _ => (9, 9)%Z)) = Some [(6, 2); (8, 2)]%Z.
Proof. vm_compute. reflexivity. Qed.

(** Limitation: of a filter with one coefficient, or longer than the rows, neither form can be made: the Fir object refuses the first,
    and the second does not fit into the matrix of responses. *)
Theorem C103_lengths_refuted : forall (R : CRing) (t : trig R) M N K (inputs filters : nat -> nat -> Cr R) out loops sc,
  (0 < M -> K <= 1 -> full M N K inputs filters loops out = None) /\
  (N < K -> expr t M N K inputs filters sc loops out = None /\ fast t M N K inputs filters sc loops out = None).
Proof.
  intros R t M N K inputs filters out loops sc. split.
  - intros HM HK. destruct M as [|M]; [lia|]. unfold full, make_bank. cbn [loop]. unfold make_fir. cbv zeta.
    destruct (make_backend _ _ _ _); [|reflexivity]. cbn [bind]. unfold row_of. rewrite map_length, seq_length.
    rewrite (proj2 (Nat.ltb_ge 1 K)) by lia. reflexivity.
  - intros HK. unfold expr, fast, padded. rewrite (proj2 (Nat.leb_gt K N)) by lia. split; reflexivity.
Qed.

Print Assumptions C103_full.
Print Assumptions C103_expression.
Print Assumptions C103_expression_reals.
Print Assumptions C103_row_by_row_refuted.
Print Assumptions C103_wrong_filter_refuted.
Print Assumptions C103_row_by_row_partial.
Print Assumptions C103_lengths_refuted.
