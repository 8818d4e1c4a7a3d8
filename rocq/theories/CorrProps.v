(** C39: correlation. *)
From Coq Require Import ZArith List Lia Bool Arith.
From Verif Require Import Base Freqswap FreqswapProps Conv ConvProps Corr CorrProofs.
Import ListNotations.
Local Open Scope nat_scope.

(** Every output is the correlation sum at its place; unbiased outputs are
    divided by the number of terms of that sum; nothing outside the output
    changes.  Any ring, conjugation, division and memory layout. *)
Theorem C39_vector (K : CRing) conj div R b (ref inp out : block1) y x (m : mem K) :
  b = biased \/ R <> support_same \/ len ref mod 2 = 1 -> 0 < len ref <= len inp -> (Z.of_nat (len inp + len ref) < W64)%Z ->
  len out = places R (len ref) (len inp) -> wf1 m out -> disjoint1 out ref -> disjoint1 out inp -> holds1 m ref y -> holds1 m inp x ->
  exists m', correlate1 conj div R (len ref) (len inp) b ref inp out m = Some m' /\
    (forall n, n < len out -> m' (addr1 out n) = Some (scaled div b (corr_at conj (len ref) (len inp) (lead R (len ref)) y x n) (overlap (len ref) (len inp) (lead R (len ref)) n))) /\
    (forall a, (forall n, n < len out -> a <> addr1 out n) -> m' a = m a).
Proof. exact (vector_ok conj div R b ref inp out y x m). Qed.
Theorem C39_matrix (K : CRing) conj div R b (ref inp out : block2) y x (m : mem K) : 0 < rows ref <= rows inp -> 0 < cols ref <= cols inp ->
  (Z.of_nat (rows inp + rows ref) < W64)%Z -> (Z.of_nat (cols inp + cols ref) < W64)%Z ->
  rows out = places R (rows ref) (rows inp) -> cols out = places R (cols ref) (cols inp) -> wf2 m out -> disjoint2 out ref -> disjoint2 out inp -> holds2 m ref y -> holds2 m inp x ->
  exists m', correlate2 conj div R (rows ref) (cols ref) (rows inp) (cols inp) b ref inp out m = Some m' /\
    (forall p q, p < rows out -> q < cols out -> m' (addr2 out p q) =
      Some (scaled div b (corr_at2 conj (rows ref) (cols ref) (rows inp) (cols inp) (lead R (rows ref)) (lead R (cols ref)) y x p q)
        (overlap (rows ref) (rows inp) (lead R (rows ref)) p * overlap (cols ref) (cols inp) (lead R (cols ref)) q))) /\
    (forall a, (forall p q, p < rows out -> q < cols out -> a <> addr2 out p q) -> m' a = m a).
Proof. exact (correlate2_ok conj div R b ref inp out y x m). Qed.
(** Same support, even reference length: at the far end the divisor is one
    less than the number of terms. *)
Theorem C39_even_same_divisor (K : CRing) conj div (ref inp out : block1) y x (m : mem K) : len ref mod 2 = 0 -> 0 < len ref <= len inp -> (Z.of_nat (len inp + len ref) < W64)%Z ->
  len out = len inp -> wf1 m out -> disjoint1 out ref -> disjoint1 out inp -> holds1 m ref y -> holds1 m inp x ->
  exists m', correlate1 conj div support_same (len ref) (len inp) unbiased ref inp out m = Some m' /\
    (forall n, n < len out -> m' (addr1 out n) = Some (div (corr_at conj (len ref) (len inp) (len ref / 2) y x n)
       (of_nat (if (len ref / 2 <=? n) && (len inp - len ref / 2 <=? n) then overlap (len ref) (len inp) (len ref / 2) n - 1 else overlap (len ref) (len inp) (len ref / 2) n)))) /\
    (forall a, (forall n, n < len out -> a <> addr1 out n) -> m' a = m a).
Proof. exact (same_even conj div ref inp out y x m). Qed.
(** So the scaling is wrong there: two terms, divisor 1. *)
Theorem C39_even_same_refuted : exists (ref inp out : block1) y x (m m' : mem Zring), 0 < len ref <= len inp /\ len out = places support_same (len ref) (len inp) /\
  wf1 m out /\ disjoint1 out ref /\ disjoint1 out inp /\ holds1 m ref y /\ holds1 m inp x /\
  correlate1 (K := Zring) (fun z => z) Z.div support_same (len ref) (len inp) unbiased ref inp out m = Some m' /\
  overlap (len ref) (len inp) (lead support_same (len ref)) 1 = 2 /\
  corr_at (K := Zring) (fun z => z) (len ref) (len inp) (lead support_same (len ref)) y x 1 = 10%Z /\ m' (addr1 out 1) = Some 10%Z.
Proof.
  exists (flat 0 1 2), (flat 2 1 2), (flat 4 1 2), (fun _ => 1%Z), (fun _ => 5%Z), (mem_of ([1; 1; 5; 5; 0; 0]%Z : list Zring)). eexists.
  split; [cbn; lia|]. split; [reflexivity|]. split.
  { apply C37_flat_wf; [lia|]. intros i Hi. destruct i as [|[|i]]; [discriminate|discriminate|lia]. }
  split; [intros i j Hi Hj; cbn [flat len addr1] in *; lia|]. split; [intros i j Hi Hj; cbn [flat len addr1] in *; lia|].
  split; [intros i Hi; cbn in Hi; destruct i as [|[|i]]; [reflexivity|reflexivity|lia]|].
  split; [intros i Hi; cbn in Hi; destruct i as [|[|i]]; [reflexivity|reflexivity|lia]|].
  split; [reflexivity|]. split; [reflexivity|]. split; reflexivity.
Qed.
(** Same support does not reject a reference longer than the input, and its
    scaling is wrong then: one term, divisor 2. *)
Theorem C39_long_reference_refuted : exists (ref inp out : block1) y x (m m' : mem Zring), len ref = 4 /\ len inp = 1 /\ len out = 1 /\
  wf1 m out /\ disjoint1 out ref /\ disjoint1 out inp /\ holds1 m ref y /\ holds1 m inp x /\
  correlate1 (K := Zring) (fun z => z) Z.div support_same (len ref) (len inp) unbiased ref inp out m = Some m' /\
  overlap (len ref) (len inp) (lead support_same (len ref)) 0 = 1 /\
  corr_at (K := Zring) (fun z => z) (len ref) (len inp) (lead support_same (len ref)) y x 0 = 6%Z /\ m' (addr1 out 0) = Some 3%Z.
Proof.
  exists (flat 0 1 4), (flat 4 1 1), (flat 5 1 1), (fun _ => 1%Z), (fun _ => 6%Z), (mem_of ([1; 1; 1; 1; 6; 0]%Z : list Zring)). eexists.
  split; [reflexivity|]. split; [reflexivity|]. split; [reflexivity|]. split.
  { apply C37_flat_wf; [lia|]. intros i Hi. destruct i as [|i]; [discriminate|lia]. }
  split; [intros i j Hi Hj; cbn [flat len addr1] in *; lia|]. split; [intros i j Hi Hj; cbn [flat len addr1] in *; lia|].
  split; [intros i Hi; cbn in Hi; destruct i as [|[|[|[|i]]]]; [reflexivity|reflexivity|reflexivity|reflexivity|lia]|].
  split; [intros i Hi; cbn in Hi; destruct i as [|i]; [reflexivity|lia]|].
  split; [reflexivity|]. split; [reflexivity|]. split; reflexivity.
Qed.
(** The number of terms, and a case of every support. *)
Example C39_overlap : map (overlap 3 5 2) (seq 0 7) = [1; 2; 3; 3; 3; 2; 1] /\ map (overlap 3 5 1) (seq 0 5) = [2; 3; 3; 3; 2] /\ map (overlap 3 5 0) (seq 0 3) = [3; 3; 3].
Proof. repeat split; reflexivity. Qed.
Example C39_case : map (fun R => option_map (fun m => map (fun a => m (Z.of_nat a)) (seq 8 (places R 3 5)))
    (correlate1 (K := Zring) Z.opp Z.div R 3 5 unbiased (flat 0 1 3) (flat 7 (-1) 5) (flat 8 1 (places R 3 5)) (mem_of ([1; 0; 2; 6; 6; 6; 6; 6; 0; 0; 0; 0; 0; 0; 0]%Z : list Zring))))
   [support_full; support_same; support_min] =
  [Some [Some (-12); Some (-6); Some (-6); Some (-6); Some (-6); Some (-3); Some (-6)]; Some [Some (-6); Some (-6); Some (-6); Some (-6); Some (-3)]; Some [Some (-6); Some (-6); Some (-6)]]%Z.
Proof. vm_compute. reflexivity. Qed.
(** An all-ones 2 x 2 reference over an all-ones 2 x 3 input: each unbiased
    output is 1 (terms / terms). *)
Example C39_case_matrix : map (fun R => let out := {| rows := places R 2 2; cols := places R 2 3; addr2 := fun i j => Z.of_nat (10 + i * places R 2 3 + j); blk := 1 |} in
    option_map (fun m => map (fun a => m (Z.of_nat a)) (seq 10 (places R 2 2 * places R 2 3)))
    (correlate2 (K := Zring) (fun z => z) Z.div R 2 2 2 3 unbiased {| rows := 2; cols := 2; addr2 := fun i j => Z.of_nat (6 + i + 2 * j); blk := 2 |} (dense 2 3 0) out
      (mem_of (repeat 1%Z 10 ++ repeat 0%Z 12 : list Zring))))
   [support_full; support_same; support_min] = [Some (repeat (Some 1%Z) 12); Some (repeat (Some 1%Z) 6); Some (repeat (Some 1%Z) 2)].
Proof. vm_compute. reflexivity. Qed.
Print Assumptions C39_vector.
Print Assumptions C39_matrix.
Print Assumptions C39_even_same_divisor.
Print Assumptions C39_even_same_refuted.
Print Assumptions C39_long_reference_refuted.
