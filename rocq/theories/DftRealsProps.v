(** C50, C51 and C53 over the real numbers.  These theorems, unlike the others,
    rest on the axioms of Coq's standard real numbers. *)
From Coq Require Import ZArith Reals Lra Lia List Arith.
From Verif Require Import Base Dft DftReals DftRealsProofs.
Local Open Scope R_scope.

(** The specification used in C50 is the textbook sum. *)
Theorem C50_reals_formula : forall (e : Z) (l : nat) (x : nat -> R * R) (w : nat),
  DFT Rring rtrig e l x w =
  fold_right (fun k acc => let th := 2 * PI * IZR (e * Z.of_nat k * Z.of_nat w) / INR l in
                           (fst acc + (fst (x k) * cos th - snd (x k) * sin th),
                            snd acc + (fst (x k) * sin th + snd (x k) * cos th))) (0, 0) (rev (seq 0 l)).
Proof. exact formula_lemma. Qed.
Print Assumptions C50_reals_formula.

(** The laws assumed of the twiddle factors in C51 and C53 hold of sine and cosine. *)
Theorem C51_reals_exact : forall l, (0 < l)%nat -> exact Rring rtrig l.
Proof. exact exact_reals. Qed.
Print Assumptions C51_reals_exact.

(** A forward and an inverse transform whose scale factors multiply to 1/n give the input back. *)
Theorem C53_round_trip_reals : forall n nf sf ni si i o m x,
  (0 < n)%nat -> sf * si = / INR n -> (nf = false -> sf = 1) -> (ni = false -> si = 1) ->
  vn i = n -> vn o = n -> cpx_ptr (vp i) -> cpx_ptr (vp o) ->
  dist (ix1 n) (vp i) (at1 (vs i)) -> dist (ix1 n) (vp o) (at1 (vs o)) ->
  disj (ix1 n) (vp i) (at1 (vs i)) (ix1 n) (vp o) (at1 (vs o)) -> disj (ix1 n) (vp o) (at1 (vs o)) (ix1 n) (vp i) (at1 (vs i)) ->
  holds Rring m (ix1 n) (vp i) (at1 (vs i)) x -> room Rring m (ix1 n) (vp i) (at1 (vs i)) -> room Rring m (ix1 n) (vp o) (at1 (vs o)) ->
  exists m1 m2, fft1_by_reference Rring rtrig C2C (-1) n nf sf i o m = Some m1 /\ fft1_by_reference Rring rtrig C2C 1 n ni si o i m1 = Some m2 /\
    holds Rring m2 (ix1 n) (vp i) (at1 (vs i)) x.
Proof. exact round_trip_reals. Qed.
Print Assumptions C53_round_trip_reals.
(** The usual choice, 1 and 1/n, for length 5, between two arrays of interleaved complex numbers. *)
Example C53_round_trip_reals_ex : 1 * / INR 5 = / INR 5 /\ (true = false -> / INR 5 = 1) /\
  exists m1 m2, let m := St Rring (fun _ => None) (fun _ => Some (2, 3)) (fun _ => None) in
    fft1_by_reference Rring rtrig C2C (-1) 5 false 1 (Vw (Inter 0) 1 5) (Vw (Inter 5) 1 5) m = Some m1 /\
    fft1_by_reference Rring rtrig C2C 1 5 true (/ INR 5) (Vw (Inter 5) 1 5) (Vw (Inter 0) 1 5) m1 = Some m2 /\
    cm Rring m2 4%Z = Some (2, 3).
Proof. exact round_trip_reals_ex. Qed.
