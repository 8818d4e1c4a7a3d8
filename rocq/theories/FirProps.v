(** C33-C35: the FIR filter. *)
From Coq Require Import ZArith List Lia Bool Arith.
From Verif Require Import Base Fir FirProofs.
Import ListNotations.
Local Open Scope nat_scope.

(** * C33: filtering in pieces equals filtering at once *)
(** With state saving, the concatenated outputs of any number of calls are
    the convolution of the concatenated inputs with the full kernel, at
    every [d]-th sample; no call reads or writes outside its vectors. *)
Theorem C33_pieces_equal_whole (K : CRing) S (kernel h : list K) i d f calls : full_kernel S kernel h -> make_fir S kernel i d = Some f ->
  Forall (fun c => length (fst c) = i /\ length (snd c) = ceil_div i d) calls ->
  exists f' r, run true f calls = Some (f', r) /\
    outputs r = map (fun q => conv_at h (flat_map fst calls) (q * d)) (seq 0 (ceil_div (length (flat_map fst calls)) d)).
Proof. intros FK M Fc. destruct (pieces S kernel h i d f calls FK M Fc) as (f' & r & E & O & _). exists f', r. split; assumption. Qed.
(** Without state saving every call starts from zero history. *)
Theorem C33_no_save_zero_history (K : CRing) S (kernel h : list K) i d f calls : full_kernel S kernel h -> make_fir S kernel i d = Some f ->
  Forall (fun c => length (fst c) = i /\ length (snd c) = ceil_div i d) calls ->
  exists r, run false f calls = Some (f, r) /\
    Forall2 (fun c o => snd o = ceil_div i d /\ fst o = map (fun q => conv_at h (fst c) (q * d)) (seq 0 (ceil_div i d))) calls r.
Proof. exact (no_save S kernel h i d f calls). Qed.
(** reset() returns the filter to its initial state. *)
Theorem C33_reset_forgets (K : CRing) S (kernel h : list K) i d f calls f1 r1 : full_kernel S kernel h -> make_fir S kernel i d = Some f ->
  Forall (fun c => length (fst c) = i /\ length (snd c) = ceil_div i d) calls -> run true f calls = Some (f1, r1) -> reset f1 = f.
Proof. exact (after_reset S kernel h i d f calls f1 r1). Qed.
(** Which filters can be built. *)
Theorem C33_constructible (K : CRing) S (kernel h : list K) i d : full_kernel S kernel h -> 0 < length kernel -> 1 < length kernel \/ S <> nonsym ->
  0 < i -> 0 < d < length h -> length h <= i + 1 -> exists f, make_fir S kernel i d = Some f.
Proof. exact (make_some S kernel h i d). Qed.
(** The strided vectors handed to the filter are accessed at the addresses
    of their elements. *)
Theorem C33_strided_data p stride len k : k < len -> strided_address p stride len k = Some (p + Z.of_nat k * stride)%Z.
Proof. exact (address_ok p stride len k). Qed.

(** A symmetric kernel of length 5, decimation 3, blocks of 4 and two calls. *)
Example C33_example : exists f f' r, make_fir (K := Zring) sym_even_len_odd [1;2;3]%Z 4 3 = Some f /\
  full_kernel (K := Zring) sym_even_len_odd [1;2;3]%Z [1;2;3;2;1]%Z /\
  run (K := Zring) true f [([1;0;0;0]%Z, [9;9]%Z); ([0;1;0;0]%Z, [9;9]%Z)] = Some (f', r) /\
  r = [([1;2]%Z, 2); ([2;9]%Z, 1)] /\
  map (fun q => conv_at (K := Zring) [1;2;3;2;1]%Z [1;0;0;0;0;1;0;0]%Z (q * 3)) (seq 0 (ceil_div 8 3)) = [1;2;2]%Z.
Proof. eexists _, _, _. split; [reflexivity|]. split; [repeat split|]. split; [vm_compute; reflexivity|]. split; reflexivity. Qed.

(** * C34: output counts *)
(** Every call returns at most output_size(), exactly output_size() if the
    block size is a multiple of the decimation; elements beyond the count
    are untouched; together the calls return one output per decimation
    point of the whole signal.  The assertion in apply() never fires. *)
Theorem C34_counts (K : CRing) S (kernel h : list K) i d f calls : full_kernel S kernel h -> make_fir S kernel i d = Some f ->
  Forall (fun c => length (fst c) = i /\ length (snd c) = ceil_div i d) calls ->
  output_size (base f) = ceil_div i d /\
  exists f' r, run true f calls = Some (f', r) /\
    length (outputs r) = ceil_div (length (flat_map fst calls)) d /\
    Forall2 (fun c o => length (fst o) = length (snd c) /\ snd o <= output_size (base f) /\ (i mod d = 0 -> snd o = output_size (base f)) /\
                      forall q, snd o <= q -> nth_error (fst o) q = nth_error (snd c) q) calls r.
Proof.
  intros FK M Fc. split; [apply (make_ok S kernel h i d f FK M)|]. destruct (pieces S kernel h i d f calls FK M Fc) as (f' & r & E & O & F2 & _). exists f', r.
  split; [exact E|]. split; [|exact F2]. rewrite O, map_length, seq_length. reflexivity.
Qed.
Example C34_example : ceil_div 8 3 = 3 /\ ceil_div 9 3 = 3 /\ ceil_div 10 3 = 4.
Proof. repeat split. Qed.

(** * C35: symmetric kernels *)
(** There is exactly one full kernel, and it is the one the filter uses
    (stored backwards). *)
Theorem C35_fir_full_kernel_unique (K : CRing) S (k : list K) : 0 < length k -> exists h, full_kernel S k h /\ forall h', full_kernel S k h' -> h' = h.
Proof.
  intros H. exists (unfold_kernel S k). pose proof (full_exists S k H) as FE. split; [exact FE|]. intros h' F'. exact (full_unique S k h' _ H F' FE).
Qed.
Theorem C35_fir_uses_full_kernel (K : CRing) S (k h : list K) i d f : full_kernel S k h -> make_fir S k i d = Some f ->
  kernel_ f = rev h /\ length (kernel_ f) = order_ (base f) + 1.
Proof.
  intros FK M. destruct (make_ok S k h i d f FK M) as (G & _ & _ & _ & E). split; [exact E|]. rewrite E, rev_length. exact (gd_h _ _ _ G).
Qed.
Example C35_fir_example : exists f g, make_fir (K := Zring) sym_even_len_even [1;2]%Z 4 1 = Some f /\ kernel_ f = [1;2;2;1]%Z /\
  make_fir (K := Zring) sym_even_len_odd [1;2]%Z 4 1 = Some g /\ kernel_ g = [1;2;1]%Z.
Proof. eexists _, _. repeat split. Qed.

Print Assumptions C33_pieces_equal_whole.
Print Assumptions C33_no_save_zero_history.
Print Assumptions C33_reset_forgets.
Print Assumptions C33_constructible.
Print Assumptions C33_strided_data.
Print Assumptions C34_counts.
Print Assumptions C35_fir_full_kernel_unique.
Print Assumptions C35_fir_uses_full_kernel.
