(** The statements of DftRealsProps, proved. *)
From Coq Require Import ZArith Reals Lra Lia List Arith.
From Verif Require Import Base Dft DftProofs DftMulti DftInv DftReals DftExamples DftFinal.
Local Open Scope R_scope.

Lemma formula_lemma (e : Z) (l : nat) (x : nat -> R * R) (w : nat) :
  DFT Rring rtrig e l x w =
  fold_right (fun k acc => let th := 2 * PI * IZR (e * Z.of_nat k * Z.of_nat w) / INR l in
                           (fst acc + (fst (x k) * cos th - snd (x k) * sin th),
                            snd acc + (fst (x k) * sin th + snd (x k) * cos th))) (0, 0) (rev (seq 0 l)).
Proof.
  unfold DFT. set (f := fun k => _). set (g := fun (k : nat) (acc : R * R) => _). generalize l as n. induction n as [|n IH]; [reflexivity|].
  rewrite seq_S, rev_app_distr. cbn [sum rev app fold_right Nat.add]. rewrite IH. reflexivity.
Qed.

Lemma nr_INR n : fst (nat_r Rring n) = INR n.
Proof.
  induction n as [|n IH]; [reflexivity|]. rewrite S_INR, <- IH. unfold nat_r. cbn [sum]. cbn. ring.
Qed.

Lemma round_trip_reals n nf sf ni si i o m x :
  (0 < n)%nat -> sf * si = / INR n -> (nf = false -> sf = 1) -> (ni = false -> si = 1) ->
  vn i = n -> vn o = n -> cpx_ptr (vp i) -> cpx_ptr (vp o) ->
  dist (ix1 n) (vp i) (at1 (vs i)) -> dist (ix1 n) (vp o) (at1 (vs o)) ->
  disj (ix1 n) (vp i) (at1 (vs i)) (ix1 n) (vp o) (at1 (vs o)) -> disj (ix1 n) (vp o) (at1 (vs o)) (ix1 n) (vp i) (at1 (vs i)) ->
  holds Rring m (ix1 n) (vp i) (at1 (vs i)) x -> room Rring m (ix1 n) (vp i) (at1 (vs i)) -> room Rring m (ix1 n) (vp o) (at1 (vs o)) ->
  exists m1 m2, fft1_by_reference Rring rtrig C2C (-1) n nf sf i o m = Some m1 /\ fft1_by_reference Rring rtrig C2C 1 n ni si o i m1 = Some m2 /\
    holds Rring m2 (ix1 n) (vp i) (at1 (vs i)) x.
Proof.
  intros Hn Hs Hf Hi. apply C53_round_trip_lemma; [apply exact_reals, Hn|exact Hf|exact Hi|].
  rewrite nr_INR. change (INR n * (sf * si) = 1). rewrite Hs. apply Rinv_r, not_0_INR. lia.
Qed.

Lemma round_trip_reals_ex : 1 * / INR 5 = / INR 5 /\ (true = false -> / INR 5 = 1) /\
  exists m1 m2, let m := St Rring (fun _ => None) (fun _ => Some (2, 3)) (fun _ => None) in
    fft1_by_reference Rring rtrig C2C (-1) 5 false 1 (Vw (Inter 0) 1 5) (Vw (Inter 5) 1 5) m = Some m1 /\
    fft1_by_reference Rring rtrig C2C 1 5 true (/ INR 5) (Vw (Inter 5) 1 5) (Vw (Inter 0) 1 5) m1 = Some m2 /\
    cm Rring m2 4%Z = Some (2, 3).
Proof.
  split; [apply Rmult_1_l|]. split; [discriminate|].
  destruct (round_trip_reals 5 false 1 true (/ INR 5) (Vw (Inter 0) 1 5) (Vw (Inter 5) 1 5) (St Rring (fun _ => None) (fun _ => Some (2, 3)) (fun _ => None)) (fun _ => (2, 3)))
    as (m1 & m2 & E1 & E2 & G); cbn [vp vs vn]; try reflexivity; try lia; try (now lays).
  - apply Rmult_1_l.
  - intros k Hk. split; [|discriminate]. constructor; [intros []|constructor].
  - intros k Hk. split; [|discriminate]. constructor; [intros []|constructor].
  - exists m1, m2. split; [exact E1|]. split; [exact E2|]. apply (G 4%nat). unfold ix1. lia.
Qed.
