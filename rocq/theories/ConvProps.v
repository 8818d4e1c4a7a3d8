(** C35 (convolution kernels), C37 and C38: convolution. *)
From Coq Require Import ZArith List Lia Bool Arith.
From Verif Require Import Base Fir FirProofs Freqswap FreqswapProps Conv ConvProofs.
Import ListNotations.
Local Open Scope nat_scope.

(** Half of a symmetric kernel is unfolded to the full kernel: vectors ... *)
Theorem C35_conv_full_kernel (K : CRing) S (k h : list K) : 0 < length k -> full_kernel S k h -> conv_kernel1 S k = Some h.
Proof. exact (kernel1_ok S k h). Qed.
(** ... and matrices. *)
Theorem C35_conv_full_kernel_matrix (K : CRing) S (k : kmat K) : 0 < kr k -> 0 < kc k -> exists h, conv_kernel2 S k = Some h /\ full_kernel2 S k h.
Proof. exact (kernel2_ok S k). Qed.
(** The size conv_kernel_size reports for an even symmetric matrix kernel is
    not the size of the full kernel. *)
Theorem C35_conv_kernel_size_refuted : exists k : kmat Zring, exists h, conv_kernel2 sym_even_len_even k = Some h /\ full_kernel2 sym_even_len_even k h /\
  conv_kernel_size2 sym_even_len_even (kr k) (kc k) <> (kr h, kc h).
Proof.
  exists (@kzero Zring 1 1). destruct (kernel2_ok sym_even_len_even (@kzero Zring 1 1)) as (h & E & F); [cbn; lia | cbn; lia |].
  exists h. split; [exact E|]. split; [exact F|]. destruct F as (-> & -> & _). cbn. congruence.
Qed.
Example C35_conv_case : conv_kernel1 (K := Zring) sym_even_len_odd [1; 2; 3]%Z = Some [1; 2; 3; 2; 1]%Z /\
  conv_kernel1 (K := Zring) sym_even_len_even [1; 2]%Z = Some [1; 2; 2; 1]%Z /\ conv_kernel1 (K := Zring) sym_even_len_odd [7]%Z = Some [7]%Z.
Proof. repeat split; reflexivity. Qed.
Example C35_conv_case_matrix : option_map (fun h => map (fun i => map (kv h i) (seq 0 (kc h))) (seq 0 (kr h)))
   (conv_kernel2 (K := Zring) sym_even_len_odd {| kr := 2; kc := 2; kv := fun i j => Z.of_nat (1 + 2 * i + j) : Zring |}) = Some [[1; 2; 1]; [3; 4; 3]; [1; 2; 1]]%Z.
Proof. reflexivity. Qed.

(** A convolution object that satisfies the documented restrictions can be
    made; output n is sample n * decimation + offset of the linear
    convolution, the outputs are exactly the samples of the region, and
    nothing but the output view changes. *)
Theorem C37_vector (K : CRing) S R (coeffs h : list K) N d : full_kernel S coeffs h -> 0 < length coeffs -> 0 < d ->
  length coeffs <= (match S with nonsym => N | _ => 2 * N end) -> (R = support_min -> length h <= N) -> (Z.of_nat (N + length h) < W64)%Z ->
  exists c P, make_conv1 S R coeffs N d = Some c /\ output1 c = Z.of_nat P /\
   (forall n, n < P <-> n * d + first_sample R (length h) <= last_sample R (length h) N) /\
   forall inp out x m, len inp = N -> len out = P -> wf1 m out -> disjoint1 out inp -> holds1 m inp x ->
    exists m', convolve1 R c inp out m = Some m' /\
     (forall n, n < P -> m' (addr1 out n) = Some (lin_conv (length h) N (fun k => nth k h r0) x (n * d + first_sample R (length h)))) /\
     (forall a, (forall n, n < P -> a <> addr1 out n) -> m' a = m a).
Proof. exact (vector_ok S R coeffs h N d). Qed.
Theorem C37_matrix (K : CRing) S R (coeffs : kmat K) Nr Nc d : 0 < kr coeffs -> 0 < kc coeffs -> 0 < d -> 0 < Nr -> 0 < Nc ->
  kr coeffs * kc coeffs <= (match S with nonsym => Nr * Nc | _ => 2 * (Nr * Nc) end) ->
  exists h, full_kernel2 S coeffs h /\ ((R = support_min -> kr h <= Nr /\ kc h <= Nc) -> (Z.of_nat (Nr + kr h) < W64)%Z -> (Z.of_nat (Nc + kc h) < W64)%Z ->
  exists c Pr Pc, make_conv2 S R coeffs Nr Nc d = Some c /\ output2 c = (Z.of_nat Pr, Z.of_nat Pc) /\
   (forall n, n < Pr <-> n * d + first_sample R (kr h) <= last_sample R (kr h) Nr) /\
   (forall n, n < Pc <-> n * d + first_sample R (kc h) <= last_sample R (kc h) Nc) /\
   forall inp out x m, rows inp = Nr -> cols inp = Nc -> rows out = Pr -> cols out = Pc -> wf2 m out -> disjoint2 out inp -> holds2 m inp x ->
    exists m', convolve2 R c inp out m = Some m' /\
     (forall p q, p < Pr -> q < Pc ->
        m' (addr2 out p q) = Some (lin_conv2 (kr h) (kc h) Nr Nc (kv h) x (p * d + first_sample R (kr h)) (q * d + first_sample R (kc h)))) /\
     (forall a, (forall p q, p < Pr -> q < Pc -> a <> addr2 out p q) -> m' a = m a)).
Proof. exact (matrix_ok S R coeffs Nr Nc d). Qed.
(** The constructor's checks admit kernels longer than the input.  With
    minimal support there is then no sample, but the output size wraps. *)
Theorem C37_min_long_kernel_refuted : exists (coeffs h : list Zring) N c, full_kernel sym_even_len_odd coeffs h /\
  make_conv1 sym_even_len_odd support_min coeffs N 1 = Some c /\ output1 c = (2 ^ 64 - 2)%Z /\
  forall n, ~ (n * 1 + first_sample support_min (length h) <= last_sample support_min (length h) N).
Proof.
  exists [1; 2; 3]%Z, [1; 2; 3; 2; 1]%Z, 2, {| coeff1 := [1; 2; 3; 2; 1]%Z : list Zring; input1 := 2; output1 := (2 ^ 64 - 2)%Z; decimation1 := 1 |}.
  split; [repeat split; reflexivity|]. split; [reflexivity|]. split; [reflexivity|]. intros n. cbn. lia.
Qed.
Theorem C37_min_wide_kernel_refuted : exists (coeffs : kmat Zring) Nr Nc c, kr coeffs * kc coeffs <= Nr * Nc /\
  make_conv2 nonsym support_min coeffs Nr Nc 1 = Some c /\ output2 c = (2%Z, (2 ^ 64 - 1)%Z).
Proof.
  exists (@kzero Zring 1 4), 2, 2. eexists. split; [cbn; lia|]. split; reflexivity.
Qed.

Definition flat (base : Z) (stride : Z) (n : nat) : block1 := {| len := n; addr1 := fun i => (base + Z.of_nat i * stride)%Z |}.
Lemma C37_flat_wf (m : mem Zring) base stride n : (stride <> 0)%Z -> (forall i, i < n -> m (base + Z.of_nat i * stride)%Z <> None) -> wf1 m (flat base stride n).
Proof. intros Hs Ha. split; [exact Ha|]. cbn. intros i i' _ _ e. assert (Z.of_nat i * stride = Z.of_nat i' * stride)%Z by lia. apply Z.mul_cancel_r in H; lia. Qed.
(** Reversed, strided input; decimation 2. *)
Example C37_case : exists c m', make_conv1 (K := Zring) sym_even_len_odd support_full [1; 2]%Z 4 2 = Some c /\
  wf1 (mem_of (repeat 0%Z 20) : mem Zring) (flat 10 1 3) /\ disjoint1 (flat 10 1 3) (flat 6 (-2) 4) /\
  convolve1 support_full c (flat 6 (-2) 4) (flat 10 1 3) (mem_of ([4; 0; 3; 0; 2; 0; 1; 0; 0; 0; 9; 9; 9; 5]%Z : list Zring)) = Some m' /\
  map (fun a => m' (Z.of_nat a)) (seq 9 5) = [Some 0; Some 1; Some 8; Some 11; Some 5]%Z.
Proof.
  eexists; eexists. split; [reflexivity|]. split.
  { apply C37_flat_wf; [lia|]. intros i Hi. destruct i as [|[|[|i]]]; [discriminate|discriminate|discriminate|lia]. }
  split; [intros i j Hi Hj; cbn [flat len addr1] in *; lia|]. split; reflexivity.
Qed.
(** 3 x 3 kernel over 3 x 3 input, same support. *)
Example C37_case_matrix : (c <- make_conv2 (K := Zring) sym_even_len_odd support_same {| kr := 2; kc := 2; kv := fun i j => Z.of_nat (i + j) : Zring |} 3 3 1 ;;
  m' <- convolve2 support_same c (dense 3 3 0) {| rows := 3; cols := 3; addr2 := fun i j => Z.of_nat (9 + i + 3 * j); blk := 1 |}
    (mem_of ([0; 0; 0; 0; 1; 0; 0; 0; 2; 0; 0; 0; 0; 0; 0; 0; 0; 0]%Z : list Zring)) ;;
  Some (map (fun a => m' (Z.of_nat a)) (seq 9 9))) = Some [Some 0; Some 1; Some 0; Some 1; Some 2; Some 3; Some 0; Some 3; Some 4]%Z.
Proof. vm_compute. reflexivity. Qed.

(** Interior by minimal support plus edges leaves the same memory as the
    direct computation. *)
Theorem C38_interior_plus_edges (K : CRing) (h : kmat K) inp out D x m : 0 < kr h -> 0 < kc h -> 0 < D -> wf2 m out -> disjoint2 out inp -> holds2 m inp x ->
  kr h / 2 <= rows inp -> kc h / 2 <= cols inp -> 0 < rows inp -> 0 < cols inp ->
  (Z.of_nat (rows inp + kr h) < W64)%Z -> (Z.of_nat (cols inp + kc h) < W64)%Z ->
  Z.of_nat (rows out) = conv_dim_output_size support_same (Z.of_nat (kr h)) (Z.of_nat (rows inp)) (Z.of_nat D) ->
  Z.of_nat (cols out) = conv_dim_output_size support_same (Z.of_nat (kc h)) (Z.of_nat (cols inp)) (Z.of_nat D) ->
  exists m1 m2, conv_same_example h inp (rows inp) (cols inp) out (rows out) (cols out) D m = Some m1 /\
    conv_same2 h inp (rows inp) (cols inp) out (rows out) (cols out) D m = Some m2 /\ forall a, m1 a = m2 a.
Proof. exact (example_same h inp out D x m). Qed.
(** With a kernel more than twice as tall as the input, the interior's size
    wraps ([in_rows - coeff_rows / 2]). *)
Theorem C38_tall_kernel_refuted : exists (h : kmat Zring) inp out D x m, 0 < kr h /\ 0 < kc h /\ wf2 m out /\ disjoint2 out inp /\ holds2 m inp x /\
  conv_same_example h inp (rows inp) (cols inp) out (rows out) (cols out) D m = None /\
  exists m2, conv_same2 h inp (rows inp) (cols inp) out (rows out) (cols out) D m = Some m2.
Proof.
  exists (@kzero Zring 4 1), (dense 1 1 0), {| rows := 1; cols := 1; addr2 := fun _ _ => 1%Z; blk := 1 |}, 1, (fun _ _ => 5%Z : Zring), (mem_of ([5; 0]%Z : list Zring)).
  split; [cbn; lia|]. split; [cbn; lia|]. split.
  { split; [intros i j Hi Hj; discriminate|]. cbn. intros; lia. }
  split; [intros i j i' j' Hi Hj Hi' Hj'; cbn in *; assert (i' = 0) by lia; assert (j' = 0) by lia; subst; discriminate|].
  split; [intros i j Hi Hj; cbn in Hi, Hj; assert (i = 0) by lia; assert (j = 0) by lia; subst; reflexivity|].
  split; [reflexivity|]. eexists. reflexivity.
Qed.
(** A 3 x 3 kernel over a 5 x 4 input with decimation 2: the interior is not
    empty. *)
Example C38_case : let h := {| kr := 3; kc := 3; kv := fun i j => Z.of_nat (i + 2 * j) : Zring |} in
  let out := {| rows := 3; cols := 2; addr2 := fun i j => Z.of_nat (20 + 2 * i + j); blk := 1 |} in
  let m := mem_of (map Z.of_nat (seq 0 20) ++ repeat 0%Z 6 : list Zring) in
  Z.of_nat (rows out) = conv_dim_output_size support_same 3 5 2 /\ Z.of_nat (cols out) = conv_dim_output_size support_same 3 4 2 /\
  is_edge h 3 2 1 0 = true /\ is_edge h 5 5 2 2 = false /\
  option_map (fun m => map (fun a => m (Z.of_nat a)) (seq 20 6)) (conv_same_example h (dense 5 4 0) 5 4 out 3 2 2 m) =
  option_map (fun m => map (fun a => m (Z.of_nat a)) (seq 20 6)) (conv_same2 h (dense 5 4 0) 5 4 out 3 2 2 m).
Proof. vm_compute. repeat split; reflexivity. Qed.

Print Assumptions C35_conv_full_kernel.
Print Assumptions C35_conv_full_kernel_matrix.
Print Assumptions C35_conv_kernel_size_refuted.
Print Assumptions C37_vector.
Print Assumptions C37_matrix.
Print Assumptions C37_min_long_kernel_refuted.
Print Assumptions C37_min_wide_kernel_refuted.
Print Assumptions C38_interior_plus_edges.
Print Assumptions C38_tall_kernel_refuted.
