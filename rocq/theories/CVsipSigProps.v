(** C75: convolution, correlation and FIR filters computed by a C-VSIPL library. *)
From Coq Require Import ZArith List Lia Bool Arith.
From Verif Require Import Base Matvec Blas CVsip CVsipProofs Fir Freqswap Conv Corr CVsipSig CVsipSigProofs.
Import ListNotations.
Local Open Scope nat_scope.

Section P.
Context {K : CRing} (conj : K -> K) (div : K -> K -> K) (L : siglib K).
Variable fir_is : vfir L -> list K -> nat -> nat -> bool -> list K -> Prop.
Local Open Scope cr_scope.

(** [sig_documented conj div L false fir_is]: [L] is any C-VSIPL library that does what the standard says, takes
    blocks that were not admitted, and may get the [suspect] outputs of a convolution wrong.
    Missing (in all theorems of this file): views with a negative stride and libraries that
    insist on admitted blocks. *)

(** A convolution made from coefficients [k] can be used any number of times with any input and output views,
    and every output is right although the library's may not be.
    Missing: decimation by more than 4 with full support (see C75_many_fixups_refuted); kernels longer than
    the input. *)
Theorem C75_convolution_partial S R (coeffs : v1) (k h : list K) N d times ah m0 :
  sig_documented conj div L false fir_is ->
  upward1 coeffs -> values k (blk1 coeffs) m0 -> full_kernel S k h ->
  (0 < d)%nat -> (length h <= N)%nat -> (Z.of_nat (N + length h) < 2 ^ 64)%Z ->
  (R = support_full -> S <> sym_even_len_odd -> d <= 4)%nat ->
  exists c P, make_cconv L S R coeffs N d times ah m0 = Some c /\ cc_out c = Z.of_nat P /\
   (forall n, (n < P)%nat <-> (n * d + first_sample R (length h) <= last_sample R (length h) N)%nat) /\
   forall inp out x m, upward1 inp -> upward1 out -> n1 inp = N -> n1 out = P ->
     wf1 m (blk1 out) -> disjoint1 (blk1 out) (blk1 inp) -> holds1 m (blk1 inp) x ->
     exists m', convolve_cv L S R c inp out m = Some m' /\ only1 (blk1 out) m m' /\
       holds1 m' (blk1 out) (fun n => lin_conv (length h) N (fun k => nth k h 0) x (n * d + first_sample R (length h))).
Proof. intros D. exact (conv_cv_ok conj div L fir_is D S R coeffs k h N d times ah m0). Qed.

(** Correlation; [sr], [si]: the reference, the input is complex in split storage.
    Missing: unbiased correlation with same support and an even reference length; split storage with a
    stride other than 1 (C74_split_stride_refuted). *)
Theorem C75_correlation_partial R times ah b sr si (ref inp out : v1) (w x : nat -> K) m :
  sig_documented conj div L false fir_is ->
  upward1 ref -> upward1 inp -> upward1 out -> (sr = true -> st1 ref = 1%Z) -> (si = true -> st1 inp = 1%Z) ->
  b = biased \/ R <> support_same \/ (n1 ref mod 2 = 1)%nat ->
  (n1 ref <= n1 inp)%nat -> (Z.of_nat (n1 inp + n1 ref) < 2 ^ 64)%Z -> n1 out = places R (n1 ref) (n1 inp) ->
  wf1 m (blk1 out) -> disjoint1 (blk1 out) (blk1 ref) -> disjoint1 (blk1 out) (blk1 inp) ->
  holds1 m (blk1 ref) w -> holds1 m (blk1 inp) x ->
  exists m', correlate_cv L R (n1 ref) (n1 inp) times ah b sr si ref inp out m = Some m' /\ only1 (blk1 out) m m' /\
    holds1 m' (blk1 out) (fun n =>
      scaled div b (corr_at conj (n1 ref) (n1 inp) (lead R (n1 ref)) w x n) (overlap (n1 ref) (n1 inp) (lead R (n1 ref)) n)).
Proof. intros D. exact (corr_cv_ok conj div L fir_is D R times ah b sr si ref inp out w x m). Qed.

(** A filter that saves its state, called with any views and contents of memory: what the calls deliver, one after
    the other, is every d-th sample of the convolution of the kernel with all that went in; nothing else changes. *)
Theorem C75_fir_pieces_partial S (kernel h : list K) i d times ah calls ys :
  sig_documented conj div L false fir_is ->
  full_kernel S kernel h -> (0 < length kernel)%nat -> (1 < length kernel \/ S <> nonsym)%nat ->
  (0 < i)%nat -> (0 < d < length h)%nat -> (length h <= i + 1)%nat ->
  Forall2 (proper_call i d) calls ys ->
  exists f f' rs, make_cfir L S kernel i d true times ah = Some f /\ run_cv L f calls = Some (f', rs) /\
    Forall2 only_delivered calls rs /\
    List.concat (map (fun p => delivered (fst p) (snd p)) (combine calls rs)) =
    map (fun p => Some (conv_at h (List.concat ys) p)) (points d 0 (length (List.concat ys))).
Proof.
  intros D F L0 L1 Hi Hd Hl C. destruct (make_cfir_ok conj div L fir_is D S kernel h i d true times ah F L0 L1 Hi Hd Hl) as (f & E & Q).
  destruct (run_save conj div L fir_is D f h i d [] calls ys Q C) as (f' & rs & E2 & _ & O & V). exists f, f', rs. auto.
Qed.

(** A filter that does not: each call starts afresh. *)
Theorem C75_fir_no_save_partial S (kernel h : list K) i d times ah calls ys :
  sig_documented conj div L false fir_is ->
  full_kernel S kernel h -> (0 < length kernel)%nat -> (1 < length kernel \/ S <> nonsym)%nat ->
  (0 < i)%nat -> (0 < d < length h)%nat -> (length h <= i + 1)%nat ->
  Forall2 (proper_call i d) calls ys ->
  exists f f' rs, make_cfir L S kernel i d false times ah = Some f /\ run_cv L f calls = Some (f', rs) /\
    Forall2 only_delivered calls rs /\
    map (fun p => delivered (fst p) (snd p)) (combine calls rs) =
    map (fun y => map (fun p => Some (conv_at h y p)) (points d 0 i)) ys.
Proof.
  intros D F L0 L1 Hi Hd Hl C. destruct (make_cfir_ok conj div L fir_is D S kernel h i d false times ah F L0 L1 Hi Hd Hl) as (f & E & Q).
  destruct (run_nosave conj div L fir_is D f h i d [] calls ys Q C) as (f' & rs & E2 & _ & O & V). exists f, f', rs. auto.
Qed.

(** After reset() a filter that saves its state starts afresh. *)
Theorem C75_fir_reset_partial S (kernel h : list K) i d times ah calls1 ys1 calls2 ys2 :
  sig_documented conj div L false fir_is ->
  full_kernel S kernel h -> (0 < length kernel)%nat -> (1 < length kernel \/ S <> nonsym)%nat ->
  (0 < i)%nat -> (0 < d < length h)%nat -> (length h <= i + 1)%nat ->
  Forall2 (proper_call i d) calls1 ys1 -> Forall2 (proper_call i d) calls2 ys2 ->
  exists f f1 rs1 f2 rs2, make_cfir L S kernel i d true times ah = Some f /\ run_cv L f calls1 = Some (f1, rs1) /\
    run_cv L (reset_cv L f1) calls2 = Some (f2, rs2) /\
    List.concat (map (fun p => delivered (fst p) (snd p)) (combine calls2 rs2)) =
    map (fun p => Some (conv_at h (List.concat ys2) p)) (points d 0 (length (List.concat ys2))).
Proof.
  intros D F L0 L1 Hi Hd Hl C1 C2. destruct (make_cfir_ok conj div L fir_is D S kernel h i d true times ah F L0 L1 Hi Hd Hl) as (f & E & Q).
  destruct (run_save conj div L fir_is D f h i d [] calls1 ys1 Q C1) as (f1 & rs1 & E1 & Q1 & _).
  destruct (run_save conj div L fir_is D (reset_cv L f1) h i d [] calls2 ys2 (reset_ok conj div L fir_is D _ _ _ _ _ _ Q1) C2) as (f2 & rs2 & E2 & _ & _ & V).
  exists f, f1, rs1, f2, rs2. auto.
Qed.
End P.

(** There are such libraries, one of them with wrong values in the suspect outputs. *)
Theorem C75_documented_ex {K : CRing} (conj : K -> K) (div : K -> K -> K) strict :
  exists L fir_is, sig_documented conj div L strict fir_is.
Proof. exists (sig_reference conj div strict), (ref_is conj div strict). apply sig_reference_ok. Qed.

Notation zlib := (sig_reference (K := Zring) (fun z => z) Z.div false).
(** Concrete cases: (1, 2, 3) * (1, 10, 100, 1000) with full support, from and to every second element. *)
Example C75_convolution_ex :
  let co := {| p1 := 0; st1 := 1; n1 := 3 |} in let i := {| p1 := 3; st1 := 2; n1 := 4 |} in let o := {| p1 := 10; st1 := 2; n1 := 6 |} in
  let m := mem_of [1;2;3; 1;7;10;7;100;7;1000; 0;9;0;9;0;9;0;9;0;9;0]%Z in
  upward1 co /\ upward1 i /\ upward1 o /\
  match make_cconv (K := Zring) zlib nonsym support_full co 4 1 0 alg_time m with
  | Some c => match convolve_cv (K := Zring) zlib nonsym support_full c i o m with
              | Some m' => map m' [10;11;12;14;16;18;20]%Z = map Some [1;9;12;123;1230;2300;3000]%Z | None => False end
  | None => False end.
Proof. cbv zeta. split; [|split; [|split]]; try (unfold upward1, W64; cbn; lia). vm_compute. reflexivity. Qed.
Example C75_correlation_ex :
  let r := {| p1 := 0; st1 := 1; n1 := 2 |} in let i := {| p1 := 2; st1 := 1; n1 := 3 |} in let o := {| p1 := 5; st1 := 1; n1 := 4 |} in
  n1 o = places support_full (n1 r) (n1 i) /\
  match correlate_cv (K := Zring) zlib support_full 2 3 0 alg_time biased false false r i o (mem_of [1;2; 1;10;100; 0;0;0;0]%Z) with
  | Some m' => map m' [5;6;7;8]%Z = map Some [2;21;210;100]%Z | None => False end.
Proof. split; vm_compute; reflexivity. Qed.
(** Two calls with blocks of 3 and decimation 2: samples 0, 2 and then 4 of (1, 1, 1) * (1, 2, 3, 4, 5, 6). *)
Example C75_fir_ex :
  let i := {| p1 := 0; st1 := 1; n1 := 3 |} in let o := {| p1 := 3; st1 := 1; n1 := 2 |} in
  let c1 := Build_call (K := Zring) i o (mem_of [1;2;3;0;0]%Z) in let c2 := Build_call (K := Zring) i o (mem_of [4;5;6;0;0]%Z) in
  Forall2 (proper_call (K := Zring) 3 2) [c1; c2] [[1;2;3]; [4;5;6]]%Z /\
  match make_cfir (K := Zring) zlib nonsym [1;1;1]%Z 3 2 true 0 alg_time with
  | Some f => match run_cv (K := Zring) zlib f [c1; c2] with
              | Some (_, rs) => map (fun p => delivered (K := Zring) (fst p) (snd p)) (combine [c1; c2] rs) = [[Some 1; Some 6]; [Some 12]]%Z | None => False end
  | None => False end.
Proof.
  cbv zeta. split; [|vm_compute; reflexivity].
  constructor; [|constructor; [|constructor]].
  all: unfold proper_call; cbn [c_in c_out c_mem]; repeat split; try (unfold upward1, W64; cbn; lia); try (cbn; reflexivity).
  all: try (intros [|[|[|i]]] Hi; cbn in *; try discriminate; try reflexivity; lia).
  all: try (intros i j _ _; cbn [addr1 blk1 p1 st1]; lia).
  all: intros i j Hi Hj; cbn in Hi, Hj |- *; lia.
Qed.

(** Full support and decimation by more than 4: the number of outputs recomputed does not depend on
    the decimation and can exceed the number of outputs, of which then one before the
    first is written.  No library gets the convolution done. *)
Theorem C75_many_fixups_refuted :
  exists (co i o : v1) (k h : list Z) (m : mem Z), upward1 co /\ upward1 i /\ upward1 o /\
    values (K := Zring) k (blk1 co) m /\ full_kernel (K := Zring) sym_even_len_even k h /\ (length h <= n1 i) /\
    (forall n, n < n1 o <-> n * 5 + first_sample support_full (length h) <= last_sample support_full (length h) (n1 i)) /\
    wf1 m (blk1 o) /\ wf1 m (blk1 i) /\ disjoint1 (blk1 o) (blk1 i) /\
    forall L fir_is times ah, sig_documented (K := Zring) (fun z => z) Z.div L false fir_is ->
      exists c, make_cconv (K := Zring) L sym_even_len_even support_full co (n1 i) 5 times ah m = Some c /\
        convolve_cv (K := Zring) L sym_even_len_even support_full c i o m = None.
Proof.
  exists {| p1 := 0; st1 := 1; n1 := 4 |}, {| p1 := 4; st1 := 1; n1 := 8 |}, {| p1 := 12; st1 := 1; n1 := 3 |}, [1;2;3;4]%Z, [1;2;3;4;4;3;2;1]%Z, (mem_of [1;2;3;4; 1;1;1;1;1;1;1;1; 0;0;0]%Z).
  split; [unfold upward1, W64; cbn; lia|]. split; [unfold upward1, W64; cbn; lia|]. split; [unfold upward1, W64; cbn; lia|].
  split; [split; [reflexivity|intros [|[|[|[|i]]]] Hi; cbn in *; try reflexivity; lia]|].
  split; [cbn; auto|]. split; [cbn; lia|]. split; [intros n; cbn [n1 first_sample last_sample length]; lia|].
  split; [split; [intros [|[|[|i]]] Hi; cbn in *; try discriminate; lia|intros i j _ _; cbn [addr1 blk1 p1 st1]; lia]|].
  split; [split; [intros [|[|[|[|[|[|[|[|i]]]]]]]] Hi; cbn in *; try discriminate; lia|intros i j _ _; cbn [addr1 blk1 p1 st1]; lia]|].
  split; [intros i j Hi Hj; cbn [addr1 blk1 p1 st1 len n1] in Hi, Hj |- *; lia|].
  intros L fir_is times ah D. unfold make_cconv. cbv zeta. cbn [p1 st1 n1].
  rewrite (doc_copy _ _ _ _ _ D (const_view1 false 0 0 1 4) (mem_of [1;2;3;4; 1;1;1;1;1;1;1;1; 0;0;0]%Z) [1;2;3;4]%Z).
  2: { apply (const_view1_usable false {| p1 := 0; st1 := 1; n1 := 4 |}). unfold upward1, W64; cbn; lia. }
  2: { split; [reflexivity|intros [|[|[|[|i]]]] Hi; cbn in *; try reflexivity; lia]. }
  eexists. split; [reflexivity|]. match goal with |- convolve_cv _ _ _ ?x _ _ _ = _ => set (c := x) end. assert (Ec : cc_coeffs c = [1;2;3;4]%Z) by reflexivity. clearbody c.
  unfold convolve_cv. destruct (n1 _ =? cc_in c); [|reflexivity]. destruct (Z.eqb _ _); [|reflexivity].
  destruct (vconvolve L _ _ _ _ _ _ _ _ _ _) as [m1|]; [|reflexivity]. cbn [bind]. rewrite Ec. cbn [fixup length].
  cbn [len blk1 n1 p1 st1 Nat.sub Nat.add]. cbn [loop Nat.add].
  destruct (_ <- usub 3 1 ;; _) as [m2|]; [|reflexivity]. cbn [bind].
  destruct (_ <- usub 3 2 ;; _) as [m3|]; [|reflexivity]. cbn [bind].
  destruct (_ <- usub 3 3 ;; _) as [m4|]; reflexivity.
Qed.

(** A filter reading a reversed vector: the offset is measured from the
    view's first element as if it were the lowest address, and the elements the library is told to read and write are others.  Here: the input
    (3, 2, 1) at addresses 2, 1, 0 is bound as addresses 5, 4, 3. *)
Theorem C75_fir_reversed_refuted :
  let i := {| p1 := 2; st1 := -1; n1 := 3 |}%Z in
  map (addr1 (blk1 i)) [0;1;2] = [2;1;0]%Z /\
  map (addr1 (vec (fir_view (p1 i) (st1 i) (n1 i)))) [0;1;2] = [5;4;3]%Z.
Proof. split; vm_compute; reflexivity. Qed.

(** A filter that saves its state cannot be copied, whatever the library. *)
Theorem C75_copy_refuted {K : CRing} (L : siglib K) (f : cfir L) : copy_filter L true f = None /\ copy_filter L false f = Some f.
Proof. split; reflexivity. Qed.

(** The user's hint does not reach the library: minimise memory becomes minimise time and the
    reverse. *)
Theorem C75_hint_refuted : hint alg_space = VSIP_ALG_TIME /\ hint alg_time = VSIP_ALG_SPACE.
Proof. split; reflexivity. Qed.

Print Assumptions C75_convolution_partial.
Print Assumptions C75_correlation_partial.
Print Assumptions C75_fir_pieces_partial.
Print Assumptions C75_fir_no_save_partial.
Print Assumptions C75_fir_reset_partial.
Print Assumptions C75_documented_ex.
Print Assumptions C75_many_fixups_refuted.
Print Assumptions C75_fir_reversed_refuted.
Print Assumptions C75_copy_refuted.
Print Assumptions C75_hint_refuted.
