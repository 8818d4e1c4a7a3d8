(** C94: three ways to change the sample rate give the same result. *)
From Coq Require Import ZArith List Lia Bool Arith.
From Verif Require Import Base Fir Resample ResampleProofs.
Import ListNotations.
Local Open Scope nat_scope.

(** Upsampling by P into a vector of zeros, filtering and keeping every Q-th
    sample: for any filter the library accepts. *)
Theorem C94_upsample_filter_downsample (K : CRing) P Q M (h x : list K) :
  1 <= P -> 1 <= Q -> 1 < length h -> length h <= M * P + 1 -> length x = M ->
  simple P Q M h x = Some (map (resampled P Q h x) (seq 0 (ceil_div (M * P) Q))).
Proof. exact (simple_ok P Q M h x). Qed.
(** The same by a decimating filter. *)
Theorem C94_decimating_filter (K : CRing) P Q M (h x : list K) :
  1 <= P -> 1 <= Q < length h -> 1 < length h -> length h <= M * P + 1 -> length x = M ->
  decimating P Q M h x = Some (map (resampled P Q h x) (seq 0 (ceil_div (M * P) Q))).
Proof. exact (decimating_ok P Q M h x). Qed.
(** The same by P filters, each with every P-th coefficient and writing every
    P-th element, whatever the vector they write to held before. *)
Theorem C94_polyphase_filter (K : CRing) P Q M S (h x yy : list K) :
  1 <= P -> 1 <= Q -> 1 < S -> S <= M + 1 -> length x = M -> length h = P * S -> length yy = M * P ->
  polyphase P Q M S h x yy = Some (map (resampled P Q h x) (seq 0 (ceil_div (M * P) Q))).
Proof. exact (polyphase_ok P Q M S h x yy). Qed.
(** So the assertions at the end of the example hold for all numbers, filters
    and signals that meet the conditions of all three. *)
Theorem C94_all_equal (K : CRing) P Q M S (h x yy : list K) :
  1 <= P -> 1 <= Q < length h -> 1 < S -> S <= M + 1 -> length x = M -> length h = P * S -> length yy = M * P ->
  length h <= M * P + 1 ->
  exists y, simple P Q M h x = Some y /\ decimating P Q M h x = Some y /\ polyphase P Q M S h x yy = Some y /\
    length y = ceil_div (M * P) Q.
Proof.
  intros H1 H2 H3 H4 H5 H6 H7 H8. eexists.
  split; [apply simple_ok; [exact H1|lia|nia|exact H8|exact H5]|]. split; [apply decimating_ok; [exact H1|exact H2|nia|exact H8|exact H5]|].
  split; [apply polyphase_ok; [exact H1|lia|exact H3|exact H4|exact H5|exact H6|exact H7]|]. rewrite map_length, seq_length. reflexivity.
Qed.
(** From 4 samples to 3 / 2 times as many. *)
Example C94_ex :
  simple (K := Zring) 3 2 4 [1; 2; 3; 4; 5; 6]%Z [1; 10; 100; 1000]%Z = Some [1; 3; 25; 140; 360; 2500]%Z /\
  decimating (K := Zring) 3 2 4 [1; 2; 3; 4; 5; 6]%Z [1; 10; 100; 1000]%Z = Some [1; 3; 25; 140; 360; 2500]%Z /\
  polyphase (K := Zring) 3 2 4 2 [1; 2; 3; 4; 5; 6]%Z [1; 10; 100; 1000]%Z (repeat 77%Z 12) = Some [1; 3; 25; 140; 360; 2500]%Z /\
  map (resampled (K := Zring) 3 2 [1; 2; 3; 4; 5; 6]%Z [1; 10; 100; 1000]%Z) (seq 0 (ceil_div (4 * 3) 2)) = [1; 3; 25; 140; 360; 2500]%Z.
Proof. vm_compute. repeat split. Qed.

(** Limitation: without the conditions the three differ: a filter that decimates
    by its own length or more is refused although filtering and then
    downsampling works, and so are phases of a single coefficient. *)
Theorem C94_refused_refuted :
  exists P Q M S (h x yy : list Zring), 1 <= P /\ 1 <= Q /\ 1 <= S /\ S <= M + 1 /\ length x = M /\ length h = P * S /\ length yy = M * P /\ length h <= M * P + 1 /\
    (exists y, simple P Q M h x = Some y) /\ decimating P Q M h x = None /\ polyphase P Q M S h x yy = None.
Proof.
  exists 2, 2, 2, 1, [1; 1]%Z, [3; 4]%Z, [0; 0; 0; 0]%Z. cbn [length]. repeat (split; [lia|]). split; [eexists; vm_compute; reflexivity|]. split; vm_compute; reflexivity.
Qed.

Print Assumptions C94_upsample_filter_downsample.
Print Assumptions C94_decimating_filter.
Print Assumptions C94_polyphase_filter.
Print Assumptions C94_all_equal.
Print Assumptions C94_refused_refuted.
