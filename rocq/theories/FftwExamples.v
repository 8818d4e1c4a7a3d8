(** Concrete calls for FftwProps.v. *)
From Coq Require Import ZArith List Bool Arith Lia.
From Verif Require Import Base Layout Dft DftExamples Fftw FftwProofs.
Import ListNotations.
Local Open Scope nat_scope.

(** The library that computes the sums, for lengths 1, 2 and 4; a call on an
    object that was created. *)
Definition ref := reference Zring ztrig.
Definition with_be {A} (o : option backend) (f : backend -> option A) := match o with Some be => f be | None => None end.
(** Memory that was not written yet. *)
Definition fresh (k : nat) := repeat (9, 9)%Z k.
Definition data : list (Z * Z) := [(1,0);(0,1);(2,0);(3,1);(0,0);(1,1);(5,0);(0,2)]%Z.
Definition cols24 (p : ptr) := Blk p [1; 0] [2; 4] [1; 2]%Z true.
Definition rows24 (p : ptr) := Blk p [0; 1] [2; 4] [4; 1]%Z true.
Definition rows23 (p : ptr) := Blk p [0; 1] [2; 3] [3; 1]%Z true.

(** A column-major 2 x 4 matrix of reals at 0 to 7, a row-major 2 x 3 matrix
    of complex numbers at 0 to 5, buffers behind them. *)
Lemma mem_small (r : list Z) (c : list (Z * Z)) : length r = 16 -> length c = 12 ->
  memory Zring 8 (zmem r c) (cols24 (Real 0)) (rows23 (Inter 0)) (Real 8) 8 (Inter 6) 6.
Proof.
  intros Lr Lc.
  assert (Wr : forall i, (0 <= i < 8)%Z -> writable Zring (zmem r c) (Real 8) i).
  { intros i Hi. split; [repeat constructor; intros []|]. cbn [zmem rm]. unfold mem_of. destruct (Z.ltb_spec (8 + i) 0); [lia|].
    rewrite nth_error_Some. apply (Nat.lt_le_trans _ 16); [lia|]. rewrite <- Lr. apply Nat.le_refl. }
  assert (Wc : forall p i, (0 <= p + i < 12)%Z -> writable Zring (zmem r c) (Inter p) i).
  { intros p i Hi. split; [repeat constructor; intros []|]. cbn [zmem cm]. unfold mem_of. destruct (Z.ltb_spec (p + i) 0); [lia|].
    rewrite nth_error_Some. apply (Nat.lt_le_trans _ 12); [lia|]. rewrite <- Lc. apply Nat.le_refl. }
  assert (Ec : forall i, ixs [2; 3] i -> exists a b, i = [a; b] /\ a < 2 /\ b < 3).
  { intros i I. inversion I as [|a ? i' ? Ha I1]; subst. inversion I1 as [|b ? i'' ? Hb I2]; subst. inversion I2; subst. eauto. }
  assert (Er : forall i, ixs [2; 4] i -> exists a b, i = [a; b] /\ a < 2 /\ b < 4).
  { intros i I. inversion I as [|a ? i' ? Ha I1]; subst. inversion I1 as [|b ? i'' ? Hb I2]; subst. inversion I2; subst. eauto. }
  unfold memory, buffer. split.
  { intros i I. destruct (Ec _ I) as (a & b & -> & Ha & Hb). apply Wc. cbn. lia. }
  split.
  { intros i i' I I' N x X X'. destruct (Ec _ I) as (a & b & -> & Ha & Hb). destruct (Ec _ I') as (a' & b' & -> & Ha' & Hb').
    destruct X as [X|[]]. destruct X' as [X'|[]]. subst x. apply ccell_inj in X'. cbn in X'. apply N. f_equal; [lia|f_equal; lia]. }
  split; [split; [reflexivity|exact Wr]|]. split; [split; [reflexivity|intros i I; apply Wc; lia]|].
  repeat split; intros x (i & I & X) (i' & I' & X'); destruct X as [X|[]]; destruct X' as [X'|[]]; subst x;
    try discriminate X'; try (apply rcell_inj in X'); try (apply ccell_inj in X');
    try (destruct (Er _ I) as (a & b & -> & Ha & Hb); cbn [ats b_stride cols24 rows23] in X'; lia);
    try (destruct (Ec _ I) as (a & b & -> & Ha & Hb); cbn [ats b_stride cols24 rows23] in X'; lia).
Qed.
