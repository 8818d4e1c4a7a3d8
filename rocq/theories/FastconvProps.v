(** Theorems about fast convolution. *)
From Coq Require Import ZArith List Bool Arith Lia Reals Ring.
From Verif Require Import Base Dft DftProofs DftMulti DftInv DftExamples DftReals DftRealsProofs Firbank FirbankProofs Fastconv FastconvProofs.
Import ListNotations.
Local Open Scope nat_scope.

(** Every version of fast convolution - in phases or pulse by pulse, in place or not, in one expression - convolves every pulse,
    taken as periodic, with the signal whose spectrum it is given; and does it once more in every repetition. *)
Theorem C104_versions : forall (R : CRing) (t : trig R) M N sc (h replica : nat -> Cr R) body loops s,
  exact R t N -> 0 < N -> (nat_r R N * ofR R sc)%cr = (1%cr : Cr R) -> (forall w, w < N -> replica w = DFT R t (-1) N h w) ->
  In body [phased t M N sc; phased_in_place t M N sc; phased_rows t M N sc; phased_rows_tmp t M N sc; interleaved t M N sc;
    interleaved_in_place t M N sc; interleaved_in_tmp t M N sc; one_line t M N sc] ->
  exists s', repeated (body replica) loops s = Some s' /\
    forall p n, p < M -> n < N -> data s' p n = convolved N h loops (data s p) n.
Proof.
  intros R t M N sc h g body loops s ex HN Hs Hg Hb. apply (repeated_does M N HN (fun _ => h)). cbn [In] in Hb.
  destruct Hb as [<- | [<- | [<- | [<- | [<- | [<- | [<- | [<- | []]]]]]]]].
  - exact (phased_does t M N sc ex HN Hs h g Hg).
  - exact (phased_in_place_does t M N sc ex HN Hs h g Hg).
  - exact (phased_rows_does t M N sc ex HN Hs h g Hg).
  - exact (phased_rows_tmp_does t M N sc ex HN Hs h g Hg).
  - exact (interleaved_does t M N sc ex HN Hs h g Hg).
  - exact (interleaved_in_place_does t M N sc ex HN Hs h g Hg).
  - exact (interleaved_in_tmp_does t M N sc ex HN Hs h g Hg).
  - exact (one_line_does t M N sc ex HN Hs h g Hg).
Qed.
(** With a replica for every pulse, each pulse is convolved with its own. *)
Theorem C104_matrix : forall (R : CRing) (t : trig R) M N sc (hs replicas : nat -> nat -> Cr R) loops s,
  exact R t N -> 0 < N -> (nat_r R N * ofR R sc)%cr = (1%cr : Cr R) -> (forall p w, p < M -> w < N -> replicas p w = DFT R t (-1) N (hs p) w) ->
  exists s', repeated (one_line_matrix t M N sc replicas) loops s = Some s' /\
    forall p n, p < M -> n < N -> data s' p n = convolved N (hs p) loops (data s p) n.
Proof.
  intros R t M N sc hs gs loops s ex HN Hs Hg. apply (repeated_does M N HN hs). apply one_line_matrix_does; assumption.
Qed.
(** Over the real numbers, with sines and cosines and the scale 1 / N, for every length. *)
Theorem C104_versions_reals : forall M N (h replica : nat -> Cr Rring) body loops s, 0 < N ->
  (forall w, w < N -> replica w = DFT Rring rtrig (-1) N h w) ->
  In body [phased (R := Rring) rtrig M N (/ INR N)%R; phased_in_place (R := Rring) rtrig M N (/ INR N)%R; phased_rows (R := Rring) rtrig M N (/ INR N)%R;
    phased_rows_tmp (R := Rring) rtrig M N (/ INR N)%R; interleaved (R := Rring) rtrig M N (/ INR N)%R; interleaved_in_place (R := Rring) rtrig M N (/ INR N)%R;
    interleaved_in_tmp (R := Rring) rtrig M N (/ INR N)%R; one_line (R := Rring) rtrig M N (/ INR N)%R] ->
  exists s', repeated (body replica) loops s = Some s' /\
    forall p n, p < M -> n < N -> data s' p n = convolved N h loops (data s p) n.
Proof.
  intros M N h g body loops s HN Hg Hb. apply (C104_versions Rring rtrig M N (/ INR N)%R h g body loops s); try assumption; [apply exact_reals; exact HN|].
  destruct (nr_real Rring N) as [k E]. rewrite E, <- ofR_mul. pose proof (nr_INR N) as E'. rewrite E in E'. cbn in E'. subst k.
  change (ofR Rring (INR N * / INR N)%R = ofR Rring 1%R). f_equal. apply Rinv_r, not_0_INR. lia.
Qed.
Example C104_versions_ex : exact Zring ztrig 1 /\ (nat_r Zring 1 * ofR Zring 1%Z)%cr = (1%cr : Cr Zring) /\
  (forall w, w < 1 -> (fun _ : nat => (2, 1)%Z) w = DFT Zring ztrig (-1) 1 (fun _ => (2, 1)%Z) w) /\
  map (fun body => option_map (fun s' => map (fun p => data s' p 0) [0; 1; 2])
      (repeated (body (fun _ => (2, 1)%Z)) 2 (St (R := Zring) (fun p _ => (Z.of_nat p + 1, 1)%Z) (fun _ _ => (9, 9)%Z))))
    [phased (R := Zring) ztrig 2 1 1%Z; phased_rows_tmp (R := Zring) ztrig 2 1 1%Z; interleaved (R := Zring) ztrig 2 1 1%Z; one_line (R := Zring) ztrig 2 1 1%Z] =
    repeat (Some [(-1, 7); (2, 11); (3, 1)]%Z) 4.
Proof.
  split; [apply ztrig1|]. split; [vm_compute; reflexivity|]. split; [intros [|w] H; [vm_compute; reflexivity | lia]|]. vm_compute. reflexivity.
Qed.
(** Two different replicas of two samples; the scale 1 / 2 is not an integer, and is left out, so that the result is twice the convolution. *)
Example C104_matrix_ex :
  option_map (fun s' => map (fun p => map (data s' p) [0; 1]) [0; 1])
    (repeated (one_line_matrix (R := Zring) ztrig 2 2 1%Z (fun p => DFT Zring ztrig (-1) 2 (fun k => (Z.of_nat (p + k), 0)%Z))) 1
      (St (R := Zring) (fun p n => (Z.of_nat n + 3, 1)%Z) (fun _ _ => (9, 9)%Z))) =
  Some [[(8, 2); (6, 2)]; [(22, 6); (20, 6)]]%Z /\
  map (fun p => map (convolved (R := Zring) 2 (fun k => (Z.of_nat (p + k), 0)%Z) 1 (fun n => (Z.of_nat n + 3, 1)%Z)) [0; 1]) [0; 1] =
  [[(4, 1); (3, 1)]; [(11, 3); (10, 3)]]%Z.
Proof. split; vm_compute; reflexivity. Qed.

(** With the unit impulse for a replica, whose spectrum is one everywhere, every version leaves the pulses as they are: the check
    of the results holds. *)
Theorem C104_impulse : forall (R : CRing) (t : trig R) M N sc (replica : nat -> Cr R) body loops s,
  exact R t N -> 0 < N -> (nat_r R N * ofR R sc)%cr = (1%cr : Cr R) ->
  (forall w, w < N -> replica w = DFT R t (-1) N (fun k => if k =? 0 then 1%cr else 0%cr) w) ->
  In body [phased t M N sc; phased_in_place t M N sc; phased_rows t M N sc; phased_rows_tmp t M N sc; interleaved t M N sc;
    interleaved_in_place t M N sc; interleaved_in_tmp t M N sc; one_line t M N sc] ->
  exists s', repeated (body replica) loops s = Some s' /\ forall p n, p < M -> n < N -> data s' p n = data s p n.
Proof.
  intros R t M N sc g body loops s ex HN Hs Hg Hb. destruct (C104_versions R t M N sc _ g body loops s ex HN Hs Hg Hb) as (s' & E & H).
  exists s'. split; [exact E|]. intros p n Hp Hn. rewrite H by assumption. apply impulse; assumption.
Qed.
Example C104_impulse_ex : forall w, w < 2 -> (fun _ : nat => (1, 0)%Z) w = DFT Zring ztrig (-1) 2 (fun k => if k =? 0 then (1, 0)%Z else (0, 0)%Z) w.
Proof. intros [|[|w]] H; [vm_compute; reflexivity | vm_compute; reflexivity | lia]. Qed.

(** Defect: the check cannot fail a version that leaves the product with the replica out, and with it the whole convolution: with the
    impulse, the forward transform followed at once by the inverse one gives the same result as the version in full. *)
Theorem C104_check_refuted : forall (R : CRing) (t : trig R) M N sc (x y : nat -> nat -> Cr R), exact R t N -> 0 < N -> (nat_r R N * ofR R sc)%cr = (1%cr : Cr R) ->
  exists s', one_line t M N sc (fun _ => 1%cr) (St x y) = Some s' /\ (forall p n, p < M -> n < N -> data s' p n = x p n) /\
    forall p n, p < M -> n < N -> data s' p n = fft t N 1 sc (fft t N (-1) r1 (x p)) n.
Proof.
  intros R t M N sc x y ex HN Hs.
  assert (G : forall w, w < N -> (fun _ : nat => (1%cr : Cr R)) w = DFT R t (-1) N (fun k => if k =? 0 then 1%cr else 0%cr) w).
  { intros w Hw. symmetry. apply flat; assumption. }
  destruct (one_line_does t M N sc ex HN Hs _ _ G (St x y)) as (s' & E & H). exists s'. split; [exact E|].
  assert (A : forall p n, p < M -> n < N -> data s' p n = x p n).
  { intros p n Hp Hn. rewrite H by assumption. exact (impulse N HN 1 (x p) n Hn). }
  split; [exact A|]. intros p n Hp Hn. rewrite A by assumption. symmetry. apply round_trip; assumption.
Qed.

(** Limitation: what is timed has nothing but zeros in it: the replica is zero, and after one repetition so are all pulses. *)
Theorem C104_timed_refuted : forall (R : CRing) (t : trig R) M N sc body loops s,
  exact R t N -> 0 < N -> (nat_r R N * ofR R sc)%cr = (1%cr : Cr R) -> 0 < loops ->
  In body [phased t M N sc; phased_in_place t M N sc; phased_rows t M N sc; phased_rows_tmp t M N sc; interleaved t M N sc;
    interleaved_in_place t M N sc; interleaved_in_tmp t M N sc; one_line t M N sc] ->
  exists s', repeated (body (fun _ => 0%cr)) loops s = Some s' /\ forall p n, p < M -> n < N -> data s' p n = 0%cr.
Proof.
  intros R t M N sc body loops s ex HN Hs Hl Hb.
  destruct (C104_versions R t M N sc (fun _ => 0%cr) (fun _ => 0%cr) body loops s ex HN Hs) as (s' & E & H); [|exact Hb|].
  - intros w Hw. symmetry. apply zeros. exact HN.
  - exists s'. split; [exact E|]. intros p n Hp Hn. rewrite H by assumption. apply silence; assumption.
Qed.

Print Assumptions C104_versions.
Print Assumptions C104_matrix.
Print Assumptions C104_versions_reals.
Print Assumptions C104_impulse.
Print Assumptions C104_check_refuted.
Print Assumptions C104_timed_refuted.
