(** The bank of FIR filters of benchmarks/hpec_kernel/firbank.cpp, in its three versions, on one processor.  Views are
    functions of their indices together with their extents; timing and the comparison with the expected output are
    left out.  Arithmetic is exact: complex numbers over a commutative ring (Dft.v). *)
From Coq Require Import ZArith List Bool Arith.
From Verif Require Import Base Dft Fir.
Import ListNotations.
Local Open Scope nat_scope.

Section Bank.
Context {R : CRing} (t : trig R).
Notation C := (Cr R).
(** firbank.cpp 403-413: [M] filters (m_), inputs of length [N] (size), [K] coefficients (k_). *)
Variables M N K : nat.
Variables inputs filters : nat -> nat -> C.
(** Row [i] of a matrix: [n] elements; storing a row. *)
Definition row_of (x : nat -> C) (n : nat) : list C := map x (seq 0 n).
Definition set_row (out : nat -> nat -> C) (i : nat) (r : nat -> C) : nat -> nat -> C := fun i' n => if i' =? i then r n else out i' n.

(** ** ImplFull: 140-174. *)
(** 155-157: one Fir object for every row. *)
Definition make_bank : option (list (fir C)) :=
  loop (fun i l => f <- make_fir (K := C) nonsym (row_of (filters i) K) N 1 ;; Some (l ++ [f])) 0 M [].
(** 166-167: every row through its filter.  The objects do not save state, so a call leaves them as they were (C33). *)
Definition full_once (bank : list (fir C)) (out : nat -> nat -> C) : option (nat -> nat -> C) :=
  loop (fun i out =>
    f <- nth_error bank i ;;
    r <- run false f [(row_of (inputs i) N, row_of (out i) N)] ;;
    match snd r with [(o, _)] => Some (set_row out i (fun n => nth n o r0)) | _ => None end) 0 M out.
(** 151-168. *)
Definition full (loops : nat) (out : nat -> nat -> C) : option (nat -> nat -> C) :=
  bank <- make_bank ;; loop (fun _ out => full_once bank out) 0 loops out.

(** Fft::operator() with scale [sc] on rows of length [N] (Dft.v; by C53 its result is the scaled transform). *)
Definition fft (e : Z) (sc : R) (x : nat -> C) : nat -> C := fun w => (DFT R t e N x w * ofR R sc)%cr.
(** 241-242, 342-343: the filters copied to the first K columns of a matrix of zeros. *)
Definition padded : option (nat -> nat -> C) := assert (K <=? N) ;; Some (fun i k => if k <? K then filters i k else r0).

(** ** ImplFast: 217-272. *)
(** 245-246: the transform of every filter, in place. *)
Definition responses (resp : nat -> nat -> C) : option (nat -> nat -> C) :=
  loop (fun i resp => Some (set_row resp i (fft (-1) r1 (resp i)))) 0 M resp.
(** 255-260: tmp *= response.row(0). *)
Definition fast_once (sc : R) (resp out : nat -> nat -> C) : option (nat -> nat -> C) :=
  loop (fun i out =>
    let tmp := fft (-1) r1 (inputs i) in
    let tmp := fun w => (tmp w * resp 0%nat w)%cr in
    Some (set_row out i (fft 1 sc tmp))) 0 M out.
(** 228-261; [sc] is scale / float(N) (235). *)
Definition fast (sc : R) (loops : nat) (out : nat -> nat -> C) : option (nat -> nat -> C) :=
  resp <- padded ;; resp <- responses resp ;; loop (fun _ out => fast_once sc resp out) 0 loops out.

(** ** ImplExpr: 320-366. *)
(** Fftm over the rows of a matrix, by value (C52). *)
Definition fftm (e : Z) (sc : R) (x : nat -> nat -> C) : nat -> nat -> C := fun i => fft e sc (x i).
(** 353: outputs = inv_fftm(response * for_fftm(inputs)). *)
Definition expr_once (sc : R) (resp out : nat -> nat -> C) : nat -> nat -> C :=
  let v := fftm 1 sc (fun i w => (resp i w * fftm (-1) r1 inputs i w)%cr) in
  fun i n => if i <? M then v i n else out i n.
(** 331-354; the filters have as many rows as the inputs (329, verify_views). *)
Definition expr (sc : R) (loops : nat) (out : nat -> nat -> C) : option (nat -> nat -> C) :=
  resp <- padded ;;
  let resp := fftm (-1) r1 resp in
  loop (fun _ out => Some (expr_once sc resp out)) 0 loops out.

(** * Specification *)
(** Element [n] of [x] filtered by the coefficients [h]: what is before the beginning of [x] is zero. *)
Definition filtered (h x : nat -> C) (n : nat) : C := sum (fun k => if k <=? n then (h k * x (n - k)%nat)%cr else r0) K.
(** The same where [x] is continued periodically. *)
Definition filtered_round (h x : nat -> C) (n : nat) : C := sum (fun k => (h k * x ((n + N - k) mod N)%nat)%cr) K.
End Bank.
