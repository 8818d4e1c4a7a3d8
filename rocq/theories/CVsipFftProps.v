(** * C76: Fourier transforms through C-VSIPL

    The statements are about any library that keeps the promises of the C-VSIPL standard ([documented]),
    and about the transform of the mathematics ([spectrum], [lines], over [DFT] of C50-C53). *)
From Coq Require Import ZArith List Bool Arith Lia.
From Verif Require Import Base Dft CVsipFft CVsipFftProofs.
Import ListNotations.
Local Open Scope nat_scope.

(** A transform of a vector of complex numbers, in either direction, of any length and scale factor, interleaved or split,
    with any strides that are not negative: the output holds the scaled transform, nothing else changes. *)
Theorem C76_complex : forall (R : CRing) (t : trig R) (L : library R) (lax evn : bool), documented R t L lax evn ->
  forall (e : Z) (n : nat) (sc : R) (i o : vw) (x : nat -> Cr R), e = 1%Z \/ e = (-1)%Z ->
  cpx_ptr (vp i) -> cpx_ptr (vp o) -> vn i = n -> vn o = n -> upward1 i -> upward1 o ->
  dist (ix1 n) (vp o) (el1 o) -> disj (ix1 n) (vp i) (el1 i) (ix1 n) (vp o) (el1 o) ->
  computes R (fft_cv R L C2C e n sc i o) (ix1 n) (vp i) (el1 i) x (ix1 n) (vp o) (el1 o) (fun w => DFT R t e n x w * ofR R sc)%cr.
Proof.
  intros R t L lax evn D e n sc i o x He Ci Co Ei Eo (Hn & Si & Bi) (_ & So & Bo) Di Dj. rewrite Ei in Hn, Bi. rewrite Eo in Bo.
  pose proof (fft_cv_ok R t L lax evn D C2C e n sc i o x He Hn ltac:(congruence) ltac:(congruence) (conj Ci Co) Ei Eo Si So Bi Bo) as H.
  rewrite Ei, Eo in H. exact (H Di Dj).
Qed.
Print Assumptions C76_complex.

(** The same in place. *)
Theorem C76_in_place : forall (R : CRing) (t : trig R) (L : library R) (lax evn : bool), documented R t L lax evn ->
  forall (e : Z) (n : nat) (sc : R) (v : vw) (x : nat -> Cr R), e = 1%Z \/ e = (-1)%Z ->
  cpx_ptr (vp v) -> vn v = n -> upward1 v -> dist (ix1 n) (vp v) (el1 v) ->
  computes R (fft_cv_in_place R L e n sc v) (ix1 n) (vp v) (el1 v) x (ix1 n) (vp v) (el1 v) (fun w => DFT R t e n x w * ofR R sc)%cr.
Proof. exact (fun R t L lax evn D => fft_in_ok R t L lax evn D). Qed.
Print Assumptions C76_in_place.

(** Transforms from real to complex numbers and back.  Partial: the view of the complex side is
    given the length of the real one, so that this holds only if the library does not mind, or for lengths up to 2
    (C76_real_length_refuted), and for even lengths if the library insists (C76_odd_refuted). *)
Theorem C76_real_partial : forall (R : CRing) (t : trig R) (L : library R) (lax evn : bool), documented R t L lax evn ->
  forall (k : kind) (e : Z) (n : nat) (sc : R) (i o : vw) (x : nat -> Cr R), sign_ok k e -> 0 < n ->
  lax = true \/ n <= 2 -> evn = false \/ Nat.even n = true ->
  types_ok k (vp i) (vp o) -> vn i = in_size k n -> vn o = out_size k n ->
  (0 <= vs i)%Z -> (0 <= vs o)%Z ->
  ((Z.of_nat n - 1) * vs i + 1 < 18446744073709551616)%Z -> ((Z.of_nat n - 1) * vs o + 1 < 18446744073709551616)%Z ->
  dist (ix1 (vn o)) (vp o) (el1 o) -> disj (ix1 (vn i)) (vp i) (el1 i) (ix1 (vn o)) (vp o) (el1 o) ->
  computes R (fft_cv R L k e n sc i o) (ix1 (vn i)) (vp i) (el1 i) x (ix1 (vn o)) (vp o) (el1 o) (spectrum R t k e n sc x).
Proof.
  intros R t L lax evn D k e n sc i o x Se Hn Hl He. apply (fft_cv_ok R t L lax evn D k e n sc i o x Se Hn (fun _ => Hl)).
  intros _ E. destruct He as [X|X]; [congruence|exact X].
Qed.
Print Assumptions C76_real_partial.

(** Transforms of all rows or columns of a matrix, of every kind.  Partial: even lengths for real transforms if the library insists, and for two
    split complex arrays equal strides along the transform (C76_split_stride_refuted). *)
Theorem C76_many_partial : forall (R : CRing) (t : trig R) (L : library R) (lax evn : bool), documented R t L lax evn ->
  forall (A : nat) (k : kind) (e : Z) (rows cols : nat) (sc : R) (i o : mw) (x : nat * nat -> Cr R),
  A = 0 \/ A = 1 -> sign_ok k e -> (k <> C2C -> evn = true -> Nat.even (if A =? 1 then rows else cols) = true) ->
  types_ok k (mp i) (mp o) ->
  (mnr i, mnc i) = (if A =? 1 then (in_size k rows, cols) else (rows, in_size k cols)) ->
  (mnr o, mnc o) = (if A =? 1 then (out_size k rows, cols) else (rows, out_size k cols)) ->
  0 < rows -> 0 < cols -> upward2 i -> upward2 o ->
  (k = C2C -> forall a b, mp i = Split a b -> if A =? 1 then mrs o = mrs i else mcs o = mcs i) ->
  dist (ix2 (mnr o) (mnc o)) (mp o) (el2 o) -> disj (ix2 (mnr i) (mnc i)) (mp i) (el2 i) (ix2 (mnr o) (mnc o)) (mp o) (el2 o) ->
  computes R (fftm_cv R L A k e rows cols sc i o) (ix2 (mnr i) (mnc i)) (mp i) (el2 i) x
    (ix2 (mnr o) (mnc o)) (mp o) (el2 o) (lines R t A k e rows cols sc x).
Proof. exact fftm_cv_ok. Qed.
Print Assumptions C76_many_partial.

(** All rows or columns in place. *)
Theorem C76_many_in_place : forall (R : CRing) (t : trig R) (L : library R) (lax evn : bool), documented R t L lax evn ->
  forall (A : nat) (e : Z) (rows cols : nat) (sc : R) (v : mw) (x : nat * nat -> Cr R), A = 0 \/ A = 1 -> e = 1%Z \/ e = (-1)%Z -> cpx_ptr (mp v) ->
  mnr v = rows -> mnc v = cols -> upward2 v -> dist (ix2 rows cols) (mp v) (el2 v) ->
  computes R (fftm_cv_in_place R L A e rows cols sc v) (ix2 rows cols) (mp v) (el2 v) x
    (ix2 rows cols) (mp v) (el2 v) (lines R t A C2C e rows cols sc x).
Proof. exact fftm_in_ok. Qed.
Print Assumptions C76_many_in_place.

(** There is a library that keeps the promises, whether it is strict about lengths or not, and whether it
    insists on even lengths or not. *)
Theorem C76_documented_ex : forall (R : CRing) (t : trig R) (lax evn : bool), exists L, documented R t L lax evn.
Proof. intros R t lax evn. exists (reference R t lax evn). apply reference_ok. Qed.
Print Assumptions C76_documented_ex.

(** *** Concrete cases: rows of two, over the integers *)
Definition t2 : trig Zring := Build_trig Zring (fun l n => if (l =? 2) && Z.odd n then (-1)%Z else 1%Z) (fun _ _ => 0%Z).
Definition cells_of (l : list (Z * Z)) : mem Zring := fun a => match find (fun p => (fst p =? a)%Z) l with Some p => Some (snd p) | None => None end.
Definition ccells_of (l : list (Z * (Z * Z))) : mem (Cr Zring) := fun a => match find (fun p => (fst p =? a)%Z) l with Some p => Some (snd p : Cr Zring) | None => None end.
Definition none {T} : mem T := fun _ => None.
Definition show_r (o : option (st Zring)) (l : list Z) : option (list (option Z)) := m <- o ;; Some (map (fun a => rm Zring m a : option Z) l).
Definition show_c (o : option (st Zring)) (l : list Z) : option (list (option (Z * Z))) := m <- o ;; Some (map (fun a => cm Zring m a : option (Z * Z)) l).
Definition m_two : st Zring :=
  St Zring (cells_of [(0, 5); (1, 7)]%Z) (ccells_of [(0, (1, 2)); (1, (0, 0)); (2, (3, 4)); (3, (9, 9)); (4, (8, 8))]%Z) none.
Example C76_ex_complex :
  show_c (fft_cv Zring (reference Zring t2 false true) C2C (-1) 2 10%Z (Vw (Inter 0) 2 2) (Vw (Inter 3) 1 2) m_two) [0; 1; 2; 3; 4]%Z
  = Some [Some (1, 2); Some (0, 0); Some (3, 4); Some (40, 60); Some (-20, -20)]%Z.
Proof. vm_compute. reflexivity. Qed.
Example C76_ex_in_place :
  show_c (fft_cv_in_place Zring (reference Zring t2 false true) 1 2 1%Z (Vw (Inter 0) 2 2) m_two) [0; 1; 2; 3; 4]%Z
  = Some [Some (4, 6); Some (0, 0); Some (-2, -2); Some (9, 9); Some (8, 8)]%Z.
Proof. vm_compute. reflexivity. Qed.
Example C76_ex_real :
  show_c (fft_cv Zring (reference Zring t2 false true) R2C (-1) 2 1%Z (Vw (Real 0) 1 2) (Vw (Inter 3) 1 2) m_two) [3; 4]%Z
  = Some [Some (12, 0); Some (-2, 0)]%Z.
Proof. vm_compute. reflexivity. Qed.
Example C76_ex_back :
  show_r (fft_cv Zring (reference Zring t2 true true) C2R 1 2 1%Z (Vw (Inter 0) 2 2) (Vw (Real 0) 1 2) m_two) [0; 1]%Z
  = Some [Some 4; Some (-2)]%Z.
Proof. vm_compute. reflexivity. Qed.
(** Columns of a 2 by 2 matrix, in place. *)
Example C76_ex_many :
  show_c (fftm_cv_in_place Zring (reference Zring t2 false true) 1 (-1) 2 2 1%Z (Mw (Inter 0) 2 1 2 2) m_two) [0; 1; 2; 3; 4]%Z
  = Some [Some (4, 6); Some (9, 9); Some (-2, -2); Some (-9, -9); Some (8, 8)]%Z.
Proof. vm_compute. reflexivity. Qed.
(** The hypotheses of C76_many_partial are met: real rows of two, to half spectra of two. *)
Example C76_ex_hyps : let i := Mw (Real 0) 2 1 2 2 in let o := Mw (Inter 0) 1 2 2 2 in
  sign_ok R2C (-1) /\ types_ok R2C (mp i) (mp o) /\ upward2 i /\ upward2 o /\
  dist (ix2 (mnr o) (mnc o)) (mp o) (el2 o) /\ disj (ix2 (mnr i) (mnc i)) (mp i) (el2 i) (ix2 (mnr o) (mnc o)) (mp o) (el2 o).
Proof.
  cbn [mp mnr mnc]. split; [reflexivity|]. split; [split; exact I|]. split; [unfold upward2; cbn [mnr mnc mrs mcs]; lia|]. split; [unfold upward2; cbn [mnr mnc mrs mcs]; lia|]. split.
  - intros [r c] [r' c'] [H1 H2] [H3 H4] N x [<-|[]] [X|[]]. cbn [fst snd] in *. apply N. unfold el2 in X. cbn [fst snd mrs mcs] in X.
    injection X as X. f_equal; lia.
  - intros [r c] [r' c'] _ _ x [<-|[]] [X|[]]. discriminate X.
Qed.

(** The 1-D transforms between real and complex numbers give the view of the half spectrum
    (n/2 + 1 elements) the length n.  A library that, as the standard asks, takes views of exactly the right
    length refuses every such transform of more than two elements (fft.cpp 187-188, 195-196, 223, 231). *)
Theorem C76_real_length_refuted : forall (R : CRing) (t : trig R) (evn : bool), exists L, documented R t L false evn /\
  forall (k : kind) (e : Z) (n : nat) (sc : R) (i o : vw) m, k <> C2C -> 2 < n -> fft_cv R L k e n sc i o m = None.
Proof. intros R t evn. exists (reference R t false evn). split; [apply reference_ok|]. intros. apply strict_length; [reflexivity|assumption|assumption]. Qed.
Print Assumptions C76_real_length_refuted.

(** C-VSIPL allows libraries that transform real vectors of even length only; the backend is chosen
    for every length (fft.hpp 60, rt_valid) and does not fall back to another one. *)
Theorem C76_odd_refuted : forall (R : CRing) (t : trig R) (lax : bool), exists L, documented R t L lax true /\
  forall (k : kind) (e : Z) (n : nat) (sc : R) (i o : vw) m, k <> C2C -> Nat.even n = false -> fft_cv R L k e n sc i o m = None.
Proof. intros R t lax. exists (reference R t lax true). split; [apply reference_ok|]. intros. apply strict_even; [reflexivity|assumption|assumption]. Qed.
Print Assumptions C76_odd_refuted.

(** Rows of a matrix from a split complex array to another: the view of the input is given the stride of the output
    (fft.cpp 393).  With every second element of the input and a dense output, every library
    transforms the wrong elements: here it leaves 3 where the transform is 4. *)
Definition m_split : st Zring :=
  St Zring (cells_of [(0, 1); (1, 2); (2, 3); (10, 0); (11, 0); (12, 0); (20, 0); (21, 0); (30, 0); (31, 0)]%Z) none none.
Theorem C76_split_stride_refuted : forall (L : library Zring) (lax evn : bool), documented Zring t2 L lax evn ->
  let i := Mw (Split 0 10) 4 2 1 2 in let o := Mw (Split 20 30) 2 1 1 2 in
  let x (rc : nat * nat) : Cr Zring := if snd rc =? 0 then (1, 0)%Z else (3, 0)%Z in
  holds Zring m_split (ix2 1 2) (mp i) (el2 i) x /\
  lines Zring t2 0 C2C (-1) 1 2 1%Z x (0, 0) = (4, 0)%Z /\
  exists m', fftm_cv Zring L 0 C2C (-1) 1 2 1%Z i o m_split = Some m' /\ get Zring m' (mp o) 0 = Some ((3, 0)%Z : Cr Zring).
Proof.
  intros L lax evn D. cbn [mp]. split; [|split; [reflexivity|]].
  - intros [r c] [H1 H2]. cbn [fst snd] in *. assert (r = 0) by lia. subst r. destruct c as [|[|c]]; [reflexivity|reflexivity|lia].
  - assert (U : forall p, usable (bound p 0 1 2)) by (intros p; apply usable_bound; lia).
    destruct (doc_fft Zring t2 L lax evn D C2C (-1)%Z 2 1%Z (bound (Split 0 10) 0 1 2) (bound (Split 20 30) 0 1 2)
      (fun j => if j =? 0 then (1, 0)%Z else (2, 0)%Z) (or_intror eq_refl) ltac:(lia) ltac:(congruence)
      (U _) (U _)
      ltac:(unfold fits; destruct lax; cbn; lia) ltac:(unfold fits; destruct lax; cbn; lia) (conj I I)) with (m := m_split) as (m' & E & G & _).
    + intros a b Ha Hb N c. unfold ix1 in *. cbn [out_size bound fv_ptr cells In] in *. intros [<-|[<-|[]]] [X|[X|[]]]; apply rcell_inj in X; unfold pos in X; cbn [bound fv_off fv_st] in X; lia.
    + intros a b Ha Hb c. unfold ix1 in *. cbn [in_size out_size bound fv_ptr cells In] in *. intros [<-|[<-|[]]] [X|[X|[]]]; apply rcell_inj in X; unfold pos in X; cbn [bound fv_off fv_st] in X; lia.
    + intros j Hj. unfold ix1 in Hj. cbn [in_size] in Hj. destruct j as [|[|j]]; [reflexivity|reflexivity|lia].
    + intros j Hj. unfold ix1 in Hj. cbn [out_size] in Hj. destruct j as [|[|j]]; [| |lia]; (split; [|split; discriminate]);
        cbn [bound fv_ptr cells]; (constructor; [intros [X|[]]; discriminate X|constructor; [intros []|constructor]]).
    + exists m'. split.
      * unfold fftm_cv, fftm_out. cbn [Nat.sub Nat.eqb axis_of fst snd mnr mnc mp mrs mcs in_size out_size andb loop].
        change (u64 (Z.of_nat 0 * 4)) with 0%Z. change (u64 (Z.of_nat 0 * 2)) with 0%Z. unfold bind at 1. cbn [bind]. rewrite E. reflexivity.
      * exact (G 0 ltac:(unfold ix1; cbn; lia)).
Qed.
Print Assumptions C76_split_stride_refuted.
