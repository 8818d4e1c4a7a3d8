(** * Convolution, correlation and FIR filters through C-VSIPL

    Model of src/ovxx/cvsip/{conv,corr,fir,common}.hpp, one dimension (the two-dimensional
    classes do not compile).  Views are those of [CVsip].

    As in [CVsip] the C-VSIPL library is any that keeps the standard's promises.  Simplifications:
    a convolution or correlation object is the list of its creation arguments; the
    kernel of a filter is handed over by its values (it is a dense array of the object's own); exact
    arithmetic; element types are those the library has. *)
From Coq Require Import ZArith List Lia Bool Arith.
From Verif Require Import Base Matvec Blas CVsip Fir Freqswap Conv Corr.
Import ListNotations.
Local Open Scope nat_scope.

(** common.hpp 66-75 *)
Inductive alg_hint := alg_time | alg_space | alg_noise.
Inductive vsip_alg_hint := VSIP_ALG_TIME | VSIP_ALG_SPACE | VSIP_ALG_NOISE.
Definition hint (h : alg_hint) : vsip_alg_hint :=
  match h with alg_noise => VSIP_ALG_NOISE | alg_space => VSIP_ALG_TIME | _ => VSIP_ALG_SPACE end.

Section Sig.
Context {K : CRing} (conj : K -> K) (div : K -> K -> K).
Local Open Scope cr_scope.
Implicit Types m : mem K.

(** vsip_vcopy into an object's own vector; vsip_conv1d_create + vsip_convolve1d; vsip_{c,}corr1d_create +
    vsip_{c,}correlate1d; vsip_{c,}fir_create, vsip_{c,}firflt, vsip_{c,}fir_reset. *)
Record siglib := {
  vcopy : cview1 -> mem K -> option (list K);
  vconvolve : list K -> symmetry -> nat -> nat -> support -> nat -> vsip_alg_hint -> cview1 -> cview1 -> mem K -> option (mem K);
  vcorrelate : nat -> nat -> support -> nat -> vsip_alg_hint -> bias -> cview1 -> cview1 -> cview1 -> mem K -> option (mem K);
  vfir : Type;
  fir_create : list K -> symmetry -> nat -> nat -> bool -> nat -> vsip_alg_hint -> option vfir;
  firflt : vfir -> cview1 -> cview1 -> mem K -> option (vfir * mem K * nat);
  fir_reset : vfir -> vfir }.
Variable L : siglib.

(** ** Convolution (conv.hpp 190-345) *)
(** 206-216 and vsip/impl/signal/conv.hpp 70-79 *)
Record cconv := { cc_coeffs : list K; cc_in : nat; cc_out : Z; cc_dec : nat; cc_n : nat; cc_hint : vsip_alg_hint }.
Definition make_cconv (S : symmetry) (R : support) (coeffs : v1) (N d times : nat) (h : alg_hint) m : option cconv :=
  let c := n1 coeffs in
  let M := match S with sym_even_len_odd => u64 (2 * Z.of_nat c - 1) | sym_even_len_even => u64 (2 * Z.of_nat c) | nonsym => Z.of_nat c end%Z in
  l <- vcopy L (const_view1 false (p1 coeffs) 0 (st1 coeffs) c) m ;;
  assert (1 <=? d)%nat ;;
  assert (match S with nonsym => c <=? N | _ => c <=? 2 * N end)%nat ;;
  Some {| cc_coeffs := l; cc_in := N; cc_out := conv_dim_output_size R M (Z.of_nat N) (Z.of_nat d); cc_dec := d; cc_n := times; cc_hint := hint h |}.

(** One recomputed output (244-260, 271-291, 303-313, 323-338): taps [0, M), sample n D + off. *)
Definition recompute (M : nat) (tap : nat -> option K) (inp out : block1) (D off n : nat) m : option (mem K) :=
  s <- loop (fun k s =>
         if (k <=? n * D + off)%nat && (n * D + off - k <? len inp)%nat
         then c <- tap k ;; x <- get1 m inp (n * D + off - k)%nat ;; Some (s + c * x) else Some s) 0 M 0 ;;
  put1 m out n s.
Definition half_tap (c : list K) (k : nat) : option K :=
  if (k <? length c)%nat then bget c k else j <- usub (2 * length c) (k + 1) ;; bget c j.
(** 234-340 *)
Definition fixup (S : symmetry) (R : support) (c : list K) (D : nat) (inp out : block1) m : option (mem K) :=
  let cs := length c in
  match S, R with
  | sym_even_len_even, support_same =>
      n <- usub (len out) 1 ;; recompute (2 * cs) (half_tap c) inp out D cs n m
  | sym_even_len_even, support_full =>
      loop (fun i m => n <- usub (len out) (1 + i) ;; recompute (2 * cs) (half_tap c) inp out D 0 n m) 0 cs m
  | nonsym, support_same =>
      n <- usub (len out) 1 ;; recompute cs (bget c) inp out D (cs / 2) n m
  | nonsym, support_full =>
      loop (fun i m => n <- usub (len out) (1 + i) ;; recompute cs (bget c) inp out D 0 n m) 0 ((cs + 1) / 2) m
  | _, _ => Some m
  end%nat.
(** 220-341 and vsip/impl/signal/conv.hpp 85-95 *)
Definition convolve_cv (S : symmetry) (R : support) (c : cconv) (inp out : v1) m : option (mem K) :=
  assert (n1 inp =? cc_in c)%nat ;; assert (Z.of_nat (n1 out) =? cc_out c)%Z ;;
  m <- vconvolve L (cc_coeffs c) S (cc_in c) (cc_dec c) R (cc_n c) (cc_hint c)
         (const_view1 false (p1 inp) 0 (st1 inp) (n1 inp)) (view1 (p1 out) 0 (st1 out) (n1 out)) m ;;
  fixup S R (cc_coeffs c) (cc_dec c) (blk1 inp) (blk1 out) m.

(** ** Correlation (corr.hpp 217-287); [sr], [si]: the operand is complex in split storage.  Sizes are
    checked by operator() (src/vsip/impl/signal/corr.hpp 84-103). *)
Definition correlate_cv (R : support) (M N times : nat) (h : alg_hint) (b : bias) (sr si : bool) (ref inp out : v1) m : option (mem K) :=
  assert (n1 ref =? M)%nat ;; assert (n1 inp =? N)%nat ;; assert (Z.of_nat (n1 out) =? corr_size R M N)%Z ;;
  vcorrelate L M N R times (hint h) b (const_view1 sr (p1 ref) 0 (st1 ref) (n1 ref))
    (const_view1 si (p1 inp) 0 (st1 inp) (n1 inp)) (view1 (p1 out) 0 (st1 out) (n1 out)) m.

(** ** FIR filters (fir.hpp 153-210) *)
Record cfir := { cf_base : backend; cf_obj : vfir L }.
(** 161-172; the base constructor: src/ovxx/signal/fir.hpp 29-38 *)
Definition make_cfir (S : symmetry) (kernel : list K) (i d : nat) (save : bool) (times : nat) (h : alg_hint) : option cfir :=
  b <- make_backend S i (length kernel) d ;;
  o <- fir_create L kernel S i d save times (hint h) ;;
  assert ((match S with nonsym => 1 | _ => 0 end) <? length kernel)%nat ;;
  Some {| cf_base := b; cf_obj := o |}.
(** 195-203; the offset is an unsigned number *)
Definition fir_view (p st : Z) (n : nat) : cview1 :=
  view1 p (if (0 <? st)%Z then 0 else u64 (- st * (Z.of_nat n - 1) + 1)) st n.
Definition apply_cv (f : cfir) (inp out : v1) m : option (cfir * mem K * nat) :=
  r <- firflt L (cf_obj f) (fir_view (p1 inp) (st1 inp) (n1 inp)) (fir_view (p1 out) (st1 out) (n1 out)) m ;;
  let '(o, m, n) := r in Some ({| cf_base := cf_base f; cf_obj := o |}, m, n).
(** vsip/impl/signal/fir.hpp 104-136 *)
Definition filter_cv (f : cfir) (inp out : v1) m : option (cfir * mem K * nat) :=
  assert (n1 inp =? input_size (cf_base f))%nat ;; assert (n1 out =? output_size (cf_base f))%nat ;; apply_cv f inp out m.
(** 205 *)
Definition reset_cv (f : cfir) : cfir := {| cf_base := cf_base f; cf_obj := fir_reset L (cf_obj f) |}.
(** Copy constructor and clone() (174-193): always an exception. *)
Definition clone_cv (f : cfir) : option cfir := None.
(** vsip/impl/signal/fir.hpp 84-99: copies of filters that save their state are deep *)
Definition copy_filter (save : bool) (f : cfir) : option cfir := if save then clone_cv f else Some f.
(** What a user does with one filter: calls with any two vectors and any contents of memory. *)
Record call := { c_in : v1; c_out : v1; c_mem : mem K }.
Fixpoint run_cv (f : cfir) (calls : list call) : option (cfir * list (mem K * nat)) :=
  match calls with
  | [] => Some (f, [])
  | c :: r =>
      x <- filter_cv f (c_in c) (c_out c) (c_mem c) ;; let '(f', m', n) := x in
      y <- run_cv f' r ;; Some (fst y, (m', n) :: snd y)
  end.

(** * Specification *)

(** Outputs of a convolution that the reference implementation of C-VSIPL gets wrong (the comment in conv.hpp
    23-31): [c] coefficients, [P] outputs. *)
Definition suspect (S : symmetry) (R : support) (c P n : nat) : Prop :=
  match S, R with
  | sym_even_len_even, support_same | nonsym, support_same => (n = P - 1)%nat
  | sym_even_len_even, support_full => (P <= n + c)%nat
  | nonsym, support_full => (P <= n + (c + 1) / 2)%nat
  | _, _ => False
  end.
(** The values of a vector. *)
Definition values (l : list K) (b : block1) m : Prop := length l = len b /\ holds1 m b (fun i => nth i l 0).
(** Sample numbers of the outputs of a filter with decimation [d] between samples [a] and [b]. *)
Definition points (d a b : nat) : list nat := map (fun q => q * d)%nat (seq (ceil_div a d) (ceil_div b d - ceil_div a d)).

(** A call a user may make: block length [i], decimation [d], [y] goes in. *)
Definition proper_call (i d : nat) (c : call) (y : list K) : Prop :=
  upward1 (c_in c) /\ upward1 (c_out c) /\ (0 < st1 (c_in c))%Z /\ (0 < st1 (c_out c))%Z /\ n1 (c_in c) = i /\ n1 (c_out c) = ceil_div i d /\
  wf1 (c_mem c) (blk1 (c_out c)) /\ disjoint1 (blk1 (c_out c)) (blk1 (c_in c)) /\ values y (blk1 (c_in c)) (c_mem c).
(** What a call that returned [n] left in the first [n] elements of its output. *)
Definition delivered (c : call) (r : mem K * nat) : list (option K) := map (fun q => fst r (addr1 (blk1 (c_out c)) q)) (seq 0 (snd r)).
(** A call changed nothing but those elements. *)
Definition only_delivered (c : call) (r : mem K * nat) : Prop :=
  (snd r <= n1 (c_out c))%nat /\ forall a, (forall q, (q < snd r)%nat -> addr1 (blk1 (c_out c)) q <> a) -> fst r a = c_mem c a.

(** What the standard promises ([strict] as in [CVsip]); of convolutions only the outputs that are not [suspect] are required to be right.
    [fir_is o h i d save x]: [o] filters blocks of length i by h with decimation d, and x
    went in since its creation or reset. *)
Record sig_documented (strict : bool) (fir_is : vfir L -> list K -> nat -> nat -> bool -> list K -> Prop) : Prop := {
  doc_copy : forall v m l, usable1 strict v -> values l (vec v) m -> vcopy L v m = Some l;
  doc_conv : forall coeffs S N d R times ah i o m x h, usable1 strict i -> usable1 strict o -> full_kernel S coeffs h ->
    (0 < length coeffs)%nat -> (length h <= N)%nat -> (1 <= d)%nat -> cv_len i = N -> (forall n, (n < cv_len o)%nat <-> (n * d + first_sample R (length h) <= last_sample R (length h) N)%nat) ->
    wf1 m (vec o) -> disjoint1 (vec o) (vec i) -> holds1 m (vec i) x ->
    exists m', vconvolve L coeffs S N d R times ah i o m = Some m' /\ only1 (vec o) m m' /\ wf1 m' (vec o) /\
      forall n, (n < cv_len o)%nat -> ~ suspect S R (length coeffs) (cv_len o) n ->
        m' (addr1 (vec o) n) = Some (lin_conv (length h) N (fun k => nth k h 0) x (n * d + first_sample R (length h)));
  doc_corr : forall M N R times ah b r i o m w x, usable1 strict r -> usable1 strict i -> usable1 strict o ->
    (M <= N)%nat -> cv_len r = M -> cv_len i = N -> cv_len o = places R M N ->
    (b = biased \/ R <> support_same \/ M mod 2 = 1%nat) ->
    wf1 m (vec o) -> disjoint1 (vec o) (vec r) -> disjoint1 (vec o) (vec i) -> holds1 m (vec r) w -> holds1 m (vec i) x ->
    exists m', vcorrelate L M N R times ah b r i o m = Some m' /\ only1 (vec o) m m' /\
      holds1 m' (vec o) (fun n => scaled div b (corr_at conj M N (lead R M) w x n) (overlap M N (lead R M) n));
  doc_fir_create : forall kernel S i d save times ah h, full_kernel S kernel h -> (0 < length kernel)%nat -> (0 < i)%nat -> (0 < d)%nat ->
    (d < length h)%nat -> (length h <= i + 1)%nat ->
    exists o, fir_create L kernel S i d save times ah = Some o /\ fir_is o h i d save [];
  doc_fir : forall o h i d save x vi vo m y, fir_is o h i d save x -> usable1 strict vi -> usable1 strict vo -> values y (vec vi) m -> length y = i -> cv_len vo = ceil_div i d ->
    wf1 m (vec vo) -> disjoint1 (vec vo) (vec vi) ->
    let x0 := if save then x else [] in
    exists o' m', firflt L o vi vo m = Some (o', m', length (points d (length x0) (length (x0 ++ y)))) /\ fir_is o' h i d save (x0 ++ y) /\
      only1 (vec vo) m m' /\
      (forall q, (q < length (points d (length x0) (length (x0 ++ y))))%nat -> m' (addr1 (vec vo) q) = Some (conv_at h (x0 ++ y) (nth q (points d (length x0) (length (x0 ++ y))) 0%nat))) /\
      (forall q, (length (points d (length x0) (length (x0 ++ y))) <= q < cv_len vo)%nat -> m' (addr1 (vec vo) q) = m (addr1 (vec vo) q));
  doc_fir_reset : forall o h i d save x, fir_is o h i d save x -> fir_is (fir_reset L o) h i d save [] }.
End Sig.
Arguments siglib : clear implicits.

(** A library that keeps the promises: it checks its arguments, reads them, and writes the values asked for, but
    zeros as the convolution's [suspect] outputs. *)
Section Reference.
Context {K : CRing} (conj : K -> K) (div : K -> K -> K) (strict : bool).
Local Open Scope cr_scope.
Definition readl (b : block1) (m : mem K) : option (list K) :=
  loop (fun i l => x <- get1 m b i ;; Some (l ++ [x])) 0 (len b) [].
Definition suspectb (S : symmetry) (R : support) (c P n : nat) : bool :=
  match S, R with
  | sym_even_len_even, support_same | nonsym, support_same => (n =? P - 1)%nat
  | sym_even_len_even, support_full => (P <=? n + c)%nat
  | nonsym, support_full => (P <=? n + (c + 1) / 2)%nat
  | _, _ => false
  end.
Definition sig_reference : siglib K := {|
  vcopy := fun v m => assert (ok1 strict v) ;; readl (vec v) m;
  vconvolve := fun coeffs S N d R _ _ i o m =>
    assert (ok1 strict i && ok1 strict o) ;;
    h <- conv_kernel1 S coeffs ;; x <- readl (vec i) m ;;
    loop (fun n m => put1 m (vec o) n
      (if suspectb S R (length coeffs) (cv_len o) n then 0
       else lin_conv (length h) N (fun k => nth k h 0) (fun k => nth k x 0) (n * d + first_sample R (length h)))) 0 (cv_len o) m;
  vcorrelate := fun M N R _ _ b r i o m =>
    assert (ok1 strict r && ok1 strict i && ok1 strict o) ;;
    w <- readl (vec r) m ;; x <- readl (vec i) m ;;
    loop (fun n m => put1 m (vec o) n
      (scaled div b (corr_at conj M N (lead R M) (fun k => nth k w 0) (fun k => nth k x 0) n) (overlap M N (lead R M) n))) 0 (cv_len o) m;
  vfir := list K * nat * bool * list K;
  fir_create := fun kernel S i d save _ _ => h <- conv_kernel1 S kernel ;; Some (h, d, save, []);
  firflt := fun o i out m =>
    let '(h, d, save, x) := o in
    assert (ok1 strict i && ok1 strict out) ;;
    y <- readl (vec i) m ;;
    let x0 := if save then x else [] in
    let ps := points d (length x0) (length (x0 ++ y)) in
    m <- loop (fun q m => put1 m (vec out) q (conv_at h (x0 ++ y) (nth q ps 0%nat))) 0 (length ps) m ;;
    Some ((h, d, save, x0 ++ y), m, length ps);
  fir_reset := fun o => let '(h, d, save, _) := o in (h, d, save, []) |}.
Definition ref_is (o : vfir sig_reference) (h : list K) (i d : nat) (save : bool) (x : list K) : Prop :=
  o = (h, d, save, x) /\ (0 < d)%nat.
End Reference.
