(** * The Chebyshev window

    Model of cheby, src/ovxx/signal/window.cpp 113-183, over the real numbers
    of Coq's standard library.  Simplifications: arithmetic is exact (the code mixes
    float constants, 125 and 156, into the double version); a vector is a
    function of the index; the transform is the sum it stands for (C50, C51 are about the code
    that computes it); the frequency swap is the permutation it stands for (Freqswap.v). *)
From Coq Require Import ZArith Reals List Bool Arith.
From Verif Require Import Base Dft DftReals.
Import ListNotations.
Local Open Scope R_scope.

Definition complexR : Type := car (Cr Rring).
(** ::acosh or its replacement, 24-34. *)
Definition acosh (f : R) : R := ln (f + sqrt (f + 1) * sqrt (f - 1)).
(** acosh of a vector into a complex vector, 36-42, for an element of magnitude
    above one (the other results are multiplied by zero in line 147).  The elements passed are never below
    -1 (lemma x_ge in ChebyProofs.v), so the logarithm and the root are real. *)
Definition acosh_elem (x : R) : R := ln (x + sqrt (x * x - 1)).
(** clip(x, lower, upper, lval, uval), vsip/selgen.hpp 146-160. *)
Definition clip_elem (lower upper lval uval x : R) : R := if Rle_dec x lower then lval else if Rlt_dec x upper then x else uval.

(** 120-128. *)
Definition ch_dp (ripple : R) : R := Rpower 10 (- ripple / 20).
Definition ch_df (len : nat) (ripple : R) : R :=
  let dp := ch_dp ripple in acos (1 / cosh (acosh ((1 + dp) / dp) / (INR len - 1))) / PI.
Definition ch_x0 (len : nat) (ripple : R) : R :=
  let df := ch_df len ripple in (3 - cos (2 * PI * df)) / (1 + cos (2 * PI * df)).
Definition ch_f (len i : nat) : R := 0 + INR i * (1 / INR len).
Definition ch_x (len : nat) (ripple : R) (i : nat) : R :=
  let x0 := ch_x0 len ripple in
  let alpha := (x0 + 1) / 2 in
  let beta := (x0 - 1) / 2 in
  alpha * cos (2 * PI * ch_f len i) + beta.
(** 132-149: the real parts; the imaginary parts are zero. *)
Definition ch_wf (len : nat) (ripple : R) (i : nat) : R :=
  let dp := ch_dp ripple in
  let x := ch_x len ripple i in
  let tmp := if Rlt_dec 1 (if Rle_dec 0 x then x else - x) then 1 else 0 in
  let wfR := clip_elem (-1) 1 (-1) 1 x in
  let wfR := (1 - tmp) * cos ((INR len - 1) / 2 * acos wfR) in
  let Cfoo := tmp * cosh ((INR len - 1) / 2 * acosh_elem x) in
  dp * (Cfoo + wfR).
(** 151-164. *)
Definition ch_wf2 (len : nat) (ripple : R) (i : nat) : complexR :=
  let wfR := ch_wf len ripple i in
  if Nat.eqb (len mod 2) 1 then (wfR, 0)
  else
    let a := -1 * PI * ch_f len i in
    let v := (wfR * cos a, wfR * sin a) in
    if Nat.leb (len / 2) i then (- fst v, - snd v) else v.
(** 166-172: Fft with scale 1/len. *)
Definition ch_fft (len : nat) (ripple : R) (n : nat) : complexR :=
  @rmul (Cr Rring) (ofR Rring (1 / INR len)) (DFT Rring rtrig (-1) len (ch_wf2 len ripple) n).
(** cheby, 116-183; 174-182: division by a zero magnitude is [None]. *)
Definition cheby (len : nat) (ripple : R) : option (list R) :=
  assert Nat.ltb 1 len ;;
  let wf0 := ch_fft len ripple 0 in
  let magsq := fst wf0 * fst wf0 + snd wf0 * snd wf0 in
  if Req_EM_T magsq 0 then None
  else
    let scale : complexR := (fst wf0 / magsq, snd wf0 / magsq) in
    let wfR n := fst (@rmul (Cr Rring) scale (ch_fft len ripple n)) in
    Some (map (fun i => wfR ((i + (len + 1) / 2) mod len)%nat) (seq 0 len)).

(** * Specification *)

(** Chebyshev polynomials. *)
Fixpoint T (n : nat) (x : R) : R :=
  match n with
  | O => 1
  | S m => match m with O => x | S p => 2 * x * T m x - T p x end
  end.
(** Squared magnitude of the discrete Fourier transform of [w] at frequency [k]. *)
Definition power (w : list R) (k : nat) : R :=
  let h := DFT Rring rtrig (-1) (length w) (fun n => (nth n w 0, 0)) k in fst h * fst h + snd h * snd h.
