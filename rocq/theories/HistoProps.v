(** C40: histograms. *)
From Coq Require Import ZArith QArith List Lia Bool Arith.
From Coq Require Import SpecFloat.
From Verif Require Import Base Histo HistoProofs.
Import ListNotations.
Local Open Scope nat_scope.

(** Real samples, exact arithmetic: after any sequence of calls every bin
    holds the number of samples, since the last call without accumulation,
    that lie in it; no access is out of range and no counter overflows. *)
Theorem C40_real_samples (mn mx : Q) num h cl : make_histogram reals mn mx num = Some h -> Forall (fun c => shape_ok reals (snd c)) cl ->
  (Z.of_nat (length (flat_map (fun c => all_samples reals (snd c)) cl)) < 2 ^ 31)%Z ->
  exists h', calls reals h cl = Some h' /\ length (hist_ h') = num /\ forall n, n < num -> nth n (hist_ h') 0%Z = count mn mx num n (counted reals [] cl).
Proof. exact (reals_ok mn mx num h cl). Qed.
(** The same for [int] samples if the range is a multiple of the number of
    inner bins. *)
Theorem C40_int_samples (mn mx : Z) num h cl : make_histogram ints mn mx num = Some h -> (mx - mn < 2 ^ 31)%Z -> ((mx - mn) mod (Z.of_nat num - 2) = 0)%Z ->
  Forall (fun c => shape_ok ints (snd c)) cl ->
  (Z.of_nat (length (flat_map (fun c => all_samples ints (snd c)) cl)) < 2 ^ 31)%Z ->
  exists h', calls ints h cl = Some h' /\ length (hist_ h') = num /\
    forall n, n < num -> nth n (hist_ h') 0%Z = count (inject_Z mn) (inject_Z mx) num n (map inject_Z (counted ints [] cl)).
Proof. exact (ints_ok mn mx num h cl). Qed.
(** Accumulation onto given counts. *)
Theorem C40_from_counts (mn mx : Q) hist h cl : make_histogram_from reals mn mx hist = Some h -> Forall (fun c => fst c = true /\ shape_ok reals (snd c)) cl ->
  Forall (fun x => (0 <= x /\ x + Z.of_nat (length (flat_map (fun c => all_samples reals (snd c)) cl)) < 2 ^ 31)%Z) hist ->
  exists h', calls reals h cl = Some h' /\ length (hist_ h') = length hist /\
    forall n, n < length hist -> nth n (hist_ h') 0%Z = (nth n hist 0 + count mn mx (length hist) n (flat_map (fun c => all_samples reals (snd c)) cl))%Z.
Proof. exact (reals_from mn mx hist h cl). Qed.
(** Every value lies in exactly one bin, so the counts add up to the number
    of samples. *)
Theorem C40_one_bin (mn mx : Q) num v : 3 <= num -> (mn < mx)%Q ->
  exists n, n < num /\ in_bin mn mx num n v = true /\ forall n', n' < num -> in_bin mn mx num n' v = true -> n' = n.
Proof. exact (one_bin mn mx num v). Qed.
Theorem C40_counts_add_up (mn mx : Q) num l : 3 <= num -> (mn < mx)%Q ->
  fold_right Z.add 0%Z (map (fun n => count mn mx num n l) (seq 0 num)) = Z.of_nat (length l).
Proof. exact (total mn mx num l). Qed.

(** [int] samples in general: a sample below the maximum is given a bin
    beyond the last one, or the bin width is zero. *)
Theorem C40_int_samples_refuted :
  (exists h, make_histogram ints 0%Z 11%Z 6 = Some h /\ hist_bin ints 0%Z 11%Z 2%Z 6 10%Z = Some 6%Z /\ call ints h false (vec (A := ints) [10%Z]) = None) /\
  (exists h, make_histogram ints 0%Z 2%Z 6 = Some h /\ call ints h false (vec (A := ints) [1%Z]) = None).
Proof.
  split.
  - exists {| min_ := 0%Z : ints; max_ := 11%Z; hist_ := repeat 0%Z 6 |}. split; [reflexivity|]. split; [vm_compute; reflexivity|reflexivity].
  - exists {| min_ := 0%Z : ints; max_ := 2%Z; hist_ := repeat 0%Z 6 |}. split; reflexivity.
Qed.
(** [float] samples: with 27 bins on [0,1) the largest sample below 1 is
    counted as if it were not below 1. *)
Theorem C40_float_rounding_refuted : exists h v,
  make_histogram floats (f_of_Z 0) (f_of_Z 1) 27 = Some h /\ SFltb v (f_of_Z 1) = true /\
  option_map hist_ (call floats h false (vec (A := floats) [v])) = Some (repeat 0%Z 26 ++ [1%Z]).
Proof.
  exists {| min_ := f_of_Z 0 : floats; max_ := f_of_Z 1; hist_ := repeat 0%Z 27 |}, (S754_finite false 16777215 (-24)).
  split; [reflexivity|]. split; vm_compute; reflexivity.
Qed.

Example C40_example : exists h h', make_histogram reals 0%Q 1%Q 5 = Some h /\
  calls reals h [(false, vec (A := reals) [1#2; 1#3; 7#1]%Q); (true, mat (A := reals) [[0#1; 1#1]; [2#3; -1#5]]%Q 2)] = Some h' /\
  hist_ h' = [1; 1; 2; 1; 2]%Z /\
  map (fun n => count 0 1 5 n [1#2; 1#3; 7#1; 0#1; 1#1; 2#3; -1#5]%Q) (seq 0 5) = [1; 1; 2; 1; 2]%Z.
Proof.
  exists {| min_ := 0%Q : reals; max_ := 1%Q; hist_ := repeat 0%Z 5 |}. eexists. split; [reflexivity|]. split; [reflexivity|]. split; vm_compute; reflexivity.
Qed.
Example C40_int_example : exists h h', make_histogram ints (-4)%Z 8%Z 6 = Some h /\
  calls ints h [(false, vec (A := ints) [0; 1; 2; 3; 7; 8; -5; -4]%Z)] = Some h' /\ hist_ h' = [1; 1; 2; 2; 1; 1]%Z.
Proof.
  exists {| min_ := (-4)%Z : ints; max_ := 8%Z; hist_ := repeat 0%Z 6 |}. eexists. split; [reflexivity|]. split; [reflexivity|]. vm_compute. reflexivity.
Qed.

Print Assumptions C40_real_samples.
Print Assumptions C40_int_samples.
Print Assumptions C40_from_counts.
Print Assumptions C40_one_bin.
Print Assumptions C40_counts_add_up.
Print Assumptions C40_int_samples_refuted.
Print Assumptions C40_float_rounding_refuted.
