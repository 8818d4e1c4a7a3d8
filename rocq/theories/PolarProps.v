(** Theorems about polar conversion of views. *)
From Coq Require Import ZArith List Bool Arith Lia Reals Lra.
From Verif Require Import Base Polar PolarProofs.
Import ListNotations.
Local Open Scope nat_scope.
Ltac flat := cbn [rat rsz csz re_at im_at plain interleaved real_of imag_of strided].

(** recttopolar(z, rho, theta) on vectors stores modulus and argument of every element as it was before the call, and
    changes nothing else, provided that nothing it writes at an index is needed at a later one. *)
Theorem C101_to_polar : forall V dbg (cv : V -> V) mag ph z rho theta m n,
  csz z = [n] -> rsz rho = [n] -> rsz theta = [n] -> apart rho theta ->
  (forall i j, i < j -> j < n -> rat rho [i] <> re_at z [j] /\ rat rho [i] <> im_at z [j] /\
                                 rat theta [i] <> re_at z [j] /\ rat theta [i] <> im_at z [j]) ->
  there m rho -> there m theta -> there m (real_of z) -> there m (imag_of z) ->
  exists m', recttopolar dbg cv mag ph z rho theta m = Some m' /\
    (forall i x y, i < n -> holds m (real_of z) [i] x -> holds m (imag_of z) [i] y ->
       holds m' rho [i] (cv (mag (x, y))) /\ holds m' theta [i] (cv (ph (x, y)))) /\
    (forall a, ~ rcell rho a -> ~ rcell theta a -> m' a = m a).
Proof.
  intros V dbg cv mag ph z rho theta m n H1 H2 H3 H4 H5 H6 H7 H8 H9.
  destruct (to_polar dbg cv mag ph z rho theta m n H1 H2 H3 H4 H5 H6 H7 H8 H9) as (m' & A & B & C & _). exists m'. auto.
Qed.
(** A packed result over the interleaved data themselves: moduli in the first cells, arguments elsewhere. *)
Example C101_to_polar_ex :
  let m := mem_of [3; 4; 5; 12; 8; 15; 0; 0; 0]%Z in
  let z := interleaved 0 0 1 3 in let rho := plain 0 0 1 3 in let theta := plain 6 0 1 3 in
  (apart rho theta /\
   (forall i j, i < j -> j < 3 -> rat rho [i] <> re_at z [j] /\ rat rho [i] <> im_at z [j] /\
                                 rat theta [i] <> re_at z [j] /\ rat theta [i] <> im_at z [j]) /\
   there m rho /\ there m theta /\ there m (real_of z) /\ there m (imag_of z)) /\
  option_map (fun m' => map m' [0; 1; 2; 3; 6; 7; 8]%Z)
    (recttopolar true (fun x => x) (fun p => Z.sqrt (fst p * fst p + snd p * snd p)) (fun p => (snd p - fst p)%Z) z rho theta m) =
  Some [Some 5; Some 13; Some 17; Some 12; Some 1; Some 7; Some 7]%Z.
Proof.
  cbv zeta. split; [|vm_compute; reflexivity].
  assert (Hm : forall a, (0 <= a < 9)%Z -> mem_of [3; 4; 5; 12; 8; 15; 0; 0; 0]%Z a <> None).
  { intros a Ha. destruct (mem_of_some [3; 4; 5; 12; 8; 15; 0; 0; 0]%Z a) as [x ->]; [cbn; lia | discriminate]. }
  split; [|split].
  - repeat split; intros i j Hi Hj; apply within1 in Hi, Hj; destruct Hi as (k & -> & Hk), Hj as (l & -> & Hl); flat; intros; try (f_equal; lia); lia.
  - intros i j Hij Hj. flat. repeat split; lia.
  - split; [|split; [|split]]; intros a (i & Hi & ->); apply within1 in Hi; destruct Hi as (k & -> & Hk); apply Hm; flat; lia.
Qed.

(** A vector is converted in place by recttopolar(z, z.real(), z.imag()), whatever the storage format, offset and stride,
    as long as its elements are different cells. *)
Theorem C101_in_place : forall V dbg (cv : V -> V) mag ph z m n,
  csz z = [n] -> apart (real_of z) (imag_of z) -> there m (real_of z) -> there m (imag_of z) ->
  exists m', recttopolar dbg cv mag ph z (real_of z) (imag_of z) m = Some m' /\
    (forall i x y, i < n -> holds m (real_of z) [i] x -> holds m (imag_of z) [i] y ->
       holds m' (real_of z) [i] (cv (mag (x, y))) /\ holds m' (imag_of z) [i] (cv (ph (x, y)))) /\
    (forall a, ~ ccell z a -> m' a = m a).
Proof.
  intros V dbg cv mag ph z m n Hz Ha M1 M2.
  destruct (to_polar dbg cv mag ph z (real_of z) (imag_of z) m n Hz Hz Hz Ha) as (m' & A & B & C & _); auto.
  - intros i j Hij Hj. apply (apart_own z Ha); [rewrite Hz; apply within1; exists i; split; [auto | lia] | rewrite Hz; apply within1; eauto | intros E; injection E; lia].
  - exists m'. split; [exact A|]. split; [exact B|]. intros a Hc. apply C; intros (i & Hi & E); apply Hc; exists i; auto.
Qed.
Example C101_in_place_ex :
  (forall base off str n, str <> 0%Z -> apart (real_of (interleaved base off str n)) (imag_of (interleaved base off str n))) /\
  option_map (fun m' => map m' [0; 1; 2; 3; 4; 5]%Z)
    (recttopolar true (fun x => x) (fun p => Z.sqrt (fst p * fst p + snd p * snd p)) (fun p => (snd p - fst p)%Z)
       (interleaved 0 2 (-2) 2) (real_of (interleaved 0 2 (-2) 2)) (imag_of (interleaved 0 2 (-2) 2)) (mem_of [3; 4; 5; 12; 8; 15]%Z)) =
  Some [Some 5; Some 1; Some 5; Some 12; Some 17; Some 7]%Z.
Proof. split; [exact interleaved_apart | vm_compute; reflexivity]. Qed.

(** w = polartorect(rho, theta), and w = cmplx(re, im), store the value of the element function at every index, for vectors and
    for matrices in either order, and change nothing else; the operands may lie in w itself at the same indices. *)
Theorem C101_from_parts : forall V (f : V -> V -> V * V) w a b m sz,
  csz w = sz -> rsz a = sz -> rsz b = sz -> apart (real_of w) (imag_of w) -> own_cells w a b ->
  there m a -> there m b -> there m (real_of w) -> there m (imag_of w) ->
  forall r, (exists n, sz = [n] /\ r = assign1 f w a b m) \/ (exists p q o, sz = [p; q] /\ r = assign2 o f w a b m) ->
  exists m', r = Some m' /\
    (forall i x y, within i sz = true -> holds m a i x -> holds m b i y ->
       holds m' (real_of w) i (fst (f x y)) /\ holds m' (imag_of w) i (snd (f x y))) /\
    (forall c, ~ ccell w c -> m' c = m c).
Proof.
  intros V f w a b m sz Ew Ea Eb H1 H2 M1 M2 M3 M4 r [(n & -> & ->) | (p & q & o & -> & ->)];
    [apply from1 | apply from2]; assumption.
Qed.
Example C101_from_parts_ex :
  let m := mem_of [1; 2; 3; 4; 5; 6; 0; 0; 0; 0; 0; 0]%Z in
  let a := {| rsz := [2; 3]; rat := fun i => match i with [r; c] => Z.of_nat (3 * r + c) | _ => 0%Z end |} in
  let w := {| csz := [2; 3]; re_at := fun i => match i with [r; c] => Z.of_nat (6 + 3 * r + c) | _ => 0%Z end; im_at := rat a |} in
  (apart (real_of w) (imag_of w) /\ own_cells w a a) /\
  option_map (fun m' => map m' [0; 1; 2; 3; 4; 5; 6; 7; 8; 9; 10; 11]%Z) (assign2 Columns (fun x y => (2 * x, y + 1)%Z) w a a m) =
  Some [Some 2; Some 3; Some 4; Some 5; Some 6; Some 7; Some 2; Some 4; Some 6; Some 8; Some 10; Some 12]%Z.
Proof.
  cbv zeta. split; [|vm_compute; reflexivity].
  split; [repeat split|]; intros i j Hi Hj; cbn [rsz rat csz re_at im_at real_of imag_of] in *; apply within2 in Hi, Hj;
    destruct Hi as (r & c & -> & Hr & Hc), Hj as (r' & c' & -> & Hr' & Hc').
  - intros E. assert (r = r' /\ c = c') as [-> ->] by lia. reflexivity.
  - intros E. assert (r = r' /\ c = c') as [-> ->] by lia. reflexivity.
  - lia.
  - intros Hne. assert (r <> r' \/ c <> c') by (destruct (Nat.eq_dec r r'), (Nat.eq_dec c c'); subst; auto). repeat split; lia.
Qed.

(** The parts of a vector or matrix put together by w = cmplx(re, im) are its parts afterwards. *)
Theorem C101_cmplx : forall V w a b (m : mem V) sz,
  csz w = sz -> rsz a = sz -> rsz b = sz -> apart (real_of w) (imag_of w) -> own_cells w a b ->
  there m a -> there m b -> there m (real_of w) -> there m (imag_of w) ->
  forall r, (exists n, sz = [n] /\ r = assign1 mk_complex w a b m) \/ (exists p q o, sz = [p; q] /\ r = assign2 o mk_complex w a b m) ->
  exists m', r = Some m' /\
    forall i x y, within i sz = true -> holds m a i x -> holds m b i y -> holds m' (real_of w) i x /\ holds m' (imag_of w) i y.
Proof.
  intros V w a b m sz Ew Ea Eb H1 H2 M1 M2 M3 M4 r Hr.
  destruct (C101_from_parts V mk_complex w a b m sz Ew Ea Eb H1 H2 M1 M2 M3 M4 r Hr) as (m' & A & B & _). exists m'. auto.
Qed.

(** Conversion to polar coordinates and back restores every element, if the scalar functions do; also when all is done in place. *)
Theorem C101_round_trip : forall V dbg mag ph (pol : V -> V -> V * V) z rho theta w m n,
  (forall x y, pol (mag (x, y)) (ph (x, y)) = (x, y)) ->
  csz z = [n] -> rsz rho = [n] -> rsz theta = [n] -> csz w = [n] ->
  apart rho theta -> own_cells z rho theta -> apart (real_of w) (imag_of w) -> own_cells w rho theta ->
  there m rho -> there m theta -> there m (real_of z) -> there m (imag_of z) -> there m (real_of w) -> there m (imag_of w) ->
  exists m1 m2, recttopolar dbg (fun x => x) mag ph z rho theta m = Some m1 /\ assign1 pol w rho theta m1 = Some m2 /\
    forall i x y, i < n -> holds m (real_of z) [i] x -> holds m (imag_of z) [i] y ->
      holds m2 (real_of w) [i] x /\ holds m2 (imag_of w) [i] y.
Proof. intros V dbg. exact (round_trip dbg). Qed.

(** In real arithmetic that is so for any functions that are the modulus and the argument as documented. *)
Theorem C101_round_trip_reals : forall dbg (mag ph : R * R -> R) z rho theta w m n,
  (forall x y, x = mag (x, y) * cos (ph (x, y)) /\ y = mag (x, y) * sin (ph (x, y)))%R ->
  csz z = [n] -> rsz rho = [n] -> rsz theta = [n] -> csz w = [n] ->
  apart rho theta -> own_cells z rho theta -> apart (real_of w) (imag_of w) -> own_cells w rho theta ->
  there m rho -> there m theta -> there m (real_of z) -> there m (imag_of z) -> there m (real_of w) -> there m (imag_of w) ->
  exists m1 m2, recttopolar dbg (fun x => x) mag ph z rho theta m = Some m1 /\
    assign1 (fun r t => (r * cos t, r * sin t)%R) w rho theta m1 = Some m2 /\
    forall i x y, i < n -> holds m (real_of z) [i] x -> holds m (imag_of z) [i] y ->
      holds m2 (real_of w) [i] x /\ holds m2 (imag_of w) [i] y.
Proof.
  intros dbg mag ph z rho theta w m n H. apply round_trip. intros x y. destruct (H x y) as [A B]. rewrite <- A, <- B. reflexivity.
Qed.
(** Such functions exist. *)
Example C101_round_trip_reals_ex :
  let mag := fun p => sqrt (fst p * fst p + snd p * snd p)%R in
  let ph := fun p : R * R => if Rle_dec 0 (snd p) then acos (fst p / mag p)%R else (- acos (fst p / mag p))%R in
  (forall x y, x = mag (x, y) * cos (ph (x, y)) /\ y = mag (x, y) * sin (ph (x, y)))%R /\
  (forall base off str n, str <> 0%Z ->
     let z := interleaved base off str n in apart (real_of z) (imag_of z) /\ own_cells z (real_of z) (imag_of z)).
Proof.
  cbv zeta. split.
  2:{ intros. split; [|apply apart_own]; apply interleaved_apart; assumption. }
  intros x y. cbn [fst snd]. set (r := sqrt (x * x + y * y)%R).
  assert (Hs : (0 <= x * x + y * y)%R) by nra.
  assert (Hr0 : (0 <= r)%R) by apply sqrt_pos.
  assert (Hrr : (r * r = x * x + y * y)%R) by (apply sqrt_sqrt; exact Hs).
  destruct (Req_dec r 0) as [E | Hr].
  { rewrite E. rewrite E in Hrr. assert (x = 0 /\ y = 0)%R as [-> ->] by nra. split; ring. }
  assert (Hrp : (0 < r)%R) by lra.
  assert (Hb : (-1 <= x / r <= 1)%R).
  { assert (Hx : (- r <= x <= r)%R) by nra. split.
    - apply Rmult_le_reg_r with r; [exact Hrp|]. unfold Rdiv. rewrite Rmult_assoc, Rinv_l by exact Hr. lra.
    - apply Rmult_le_reg_r with r; [exact Hrp|]. unfold Rdiv. rewrite Rmult_assoc, Rinv_l by exact Hr. lra. }
  assert (Hc : (r * (x / r) = x)%R) by (field; exact Hr).
  assert (Hy : (r * sqrt (1 - (x / r)²) = Rabs y)%R).
  { rewrite <- (sqrt_Rsqr_abs y). rewrite <- (sqrt_square r Hr0) at 1. rewrite <- sqrt_mult.
    - f_equal. unfold Rsqr. transitivity (r * r - x * x)%R; [field; exact Hr | lra].
    - nra.
    - unfold Rsqr. nra. }
  destruct (Rle_dec 0 y) as [Hp | Hp].
  - rewrite cos_acos, sin_acos by exact Hb. rewrite Hc, Hy, Rabs_right by lra. auto.
  - rewrite cos_neg, sin_neg, cos_acos, sin_acos by exact Hb. rewrite Hc.
    replace (r * - sqrt (1 - (x / r)²))%R with (- (r * sqrt (1 - (x / r)²)))%R by ring. rewrite Hy, Rabs_left by lra. split; [reflexivity | lra].
Qed.

(** Different numbers of elements are diagnosed where assertions are compiled. *)
Theorem C101_sizes : forall V (cv : V -> V) mag ph z rho theta m,
  fold_right Nat.mul 1 (csz z) <> fold_right Nat.mul 1 (rsz rho) \/ fold_right Nat.mul 1 (csz z) <> fold_right Nat.mul 1 (rsz theta) ->
  recttopolar true cv mag ph z rho theta m = None.
Proof. intros V cv mag ph z rho theta m H. apply sizes; [reflexivity | exact H]. Qed.
Example C101_sizes_ex : fold_right Nat.mul 1 (csz (interleaved 0 0 1 3)) <> fold_right Nat.mul 1 (rsz (plain 6 0 1 4)).
Proof. vm_compute. discriminate. Qed.

(** Limitation: without assertions longer results are accepted, and their further elements keep what they had. *)
Theorem C101_longer_refuted : exists (mag ph : Z * Z -> Z) z rho theta m m',
  csz z = [1] /\ rsz rho = [2] /\ rsz theta = [2] /\ apart rho theta /\
  recttopolar false (fun x => x) mag ph z rho theta m = Some m' /\
  m' (rat rho [1]) = m (rat rho [1]) /\ m' (rat theta [1]) = m (rat theta [1]).
Proof.
  exists fst, snd, (interleaved 0 0 1 1), (plain 2 0 1 2), (plain 4 0 1 2), (mem_of [3; 4; 7; 7; 7; 7]%Z). eexists.
  split; [reflexivity|]. split; [reflexivity|]. split; [reflexivity|]. split.
  - repeat split; intros i j Hi Hj; apply within1 in Hi, Hj; destruct Hi as (k & -> & Hk), Hj as (l & -> & Hl); flat; intros; try (f_equal; lia); lia.
  - split; [vm_compute; reflexivity|]. split; vm_compute; reflexivity.
Qed.

(** Limitation: when a result lies in the data at another index, elements are converted that have been overwritten
    already; here the modulus of element 1 is taken of the modulus of element 0. *)
Theorem C101_shifted_refuted : exists (mag ph : Z * Z -> Z) z rho theta m m',
  csz z = [2] /\ rsz rho = [2] /\ rsz theta = [2] /\ apart rho theta /\
  recttopolar true (fun x => x) mag ph z rho theta m = Some m' /\
  exists x y, holds m (real_of z) [1] x /\ holds m (imag_of z) [1] y /\ ~ holds m' rho [1] (mag (x, y)).
Proof.
  exists (fun p => Z.sqrt (fst p * fst p + snd p * snd p))%Z, snd, (interleaved 0 0 1 2), (plain 2 0 1 2), (plain 4 0 1 2), (mem_of [3; 4; 8; 15; 0; 0]%Z). eexists.
  split; [reflexivity|]. split; [reflexivity|]. split; [reflexivity|]. split.
  - repeat split; intros i j Hi Hj; apply within1 in Hi, Hj; destruct Hi as (k & -> & Hk), Hj as (l & -> & Hl); flat; intros; try (f_equal; lia); lia.
  - split; [vm_compute; reflexivity|]. exists 8%Z, 15%Z. split; [vm_compute; reflexivity|]. split; [vm_compute; reflexivity|].
    vm_compute. discriminate.
Qed.

Print Assumptions C101_to_polar.
Print Assumptions C101_in_place.
Print Assumptions C101_from_parts.
Print Assumptions C101_cmplx.
Print Assumptions C101_round_trip.
Print Assumptions C101_round_trip_reals.
Print Assumptions C101_sizes.
Print Assumptions C101_longer_refuted.
Print Assumptions C101_shifted_refuted.
