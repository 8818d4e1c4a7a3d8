(** Three-dimensional transforms. *)
From Coq Require Import ZArith List Bool Arith Lia Ring.
From Verif Require Import Base Dft DftProofs DftMulti.
Import ListNotations.
Local Open Scope nat_scope.

Section Three.
  Context (R : CRing).
  Add Ring Rr : (r_th R).
  Add Ring Cc : (r_th (Cr R)).
  Context (t : trig R).
  Notation st := (st R). Notation cpx := (Cr R).
  Implicit Types (m : st) (p q : ptr).
  Notation DFT := (DFT R t). Notation eff := (eff R).
  Notation DFT2 := (DFT2 R t). Notation DFT3 := (DFT3 R t).
  Notation I3 := (nat * (nat * nat))%type.

  Lemma DFT3_21 e nx ny nz x u v w : DFT2 e ny nz (fun j k => DFT e nx (fun i => x i j k) u) v w = DFT3 e nx ny nz x u v w.
  Proof.
    unfold Dft.DFT, Dft.DFT2, Dft.DFT3.
    transitivity (sum (fun j => sum (fun i => sum (fun k => (x i j k * (sin_cos R t nx (e * Z.of_nat i * Z.of_nat u)%Z * (sin_cos R t ny (e * Z.of_nat j * Z.of_nat v)%Z * sin_cos R t nz (e * Z.of_nat k * Z.of_nat w)%Z)))%cr) nz) nx) ny).
    - apply (sum_ext (Cr R)). intros j _. rewrite (sum_swap (Cr R)). apply (sum_ext (Cr R)). intros k _. rewrite <- (sum_mul_r R). apply (sum_ext (Cr R)). intros i _. ring.
    - apply (sum_swap (Cr R)).
  Qed.
  Lemma DFT3_s12 e nx ny nz x u v w : DFT3 e nx ny nz x u v w = DFT3 e ny nx nz (fun j i k => x i j k) v u w.
  Proof.
    unfold Dft.DFT3. rewrite (sum_swap (Cr R)). apply (sum_ext (Cr R)). intros j _. apply (sum_ext (Cr R)). intros i _. apply (sum_ext (Cr R)). intros k _. ring.
  Qed.
  Lemma DFT3_s23 e nx ny nz x u v w : DFT3 e nx ny nz x u v w = DFT3 e nx nz ny (fun i k j => x i j k) u w v.
  Proof.
    rewrite <- !(DFT3_12 R t). apply (DFT_ext R t). intros i _. apply (DFT2_swp R t).
  Qed.

  (** Lines along the first dimension. *)
  Lemma xlines_ip e q xs ys zs nx ny nz X : dist (ix3 nx ny nz) q (at3 xs ys zs) ->
    eff (loop (fun y m => loop (fun z m' => dft1_in_place R t e (padd q (off y ys + off z zs)) xs nx m') 0 nz m) 0 ny)
      (ix3 nx ny nz) q (at3 xs ys zs) X (ix3 nx ny nz) q (at3 xs ys zs) (fun i => DFT e nx (fun x => X (x, snd i)) (fst i)).
  Proof.
    intros D.
    assert (A : forall y z x, (lin (fun z => off y ys + off z zs) xs (z, x) = at3 xs ys zs (x, (y, z)))%Z).
    { intros y z x. unfold lin, at3, at2, off. cbn [fst snd]. lia. }
    pose proof (eff_loop R (fun y m => loop (fun z m' => dft1_in_place R t e (padd q (off y ys + off z zs)) xs nx m') 0 nz m) ny
      (ix2 nz nx) q (fun y => lin (fun z => off y ys + off z zs)%Z xs) (fun y zx => X (snd zx, (y, fst zx)))
      (ix2 nz nx) q (fun y => lin (fun z => off y ys + off z zs)%Z xs) (fun y zx => DFT e nx (fun x => X (x, (y, fst zx))) (snd zx))) as H.
    refine (eff_reindex R _ _ _ _ _ _ _ _ _ _ _ _ _ _ _ (H _ _ _) _ _ _).
    - intros y Hy. apply (lines_ip R t e q (fun z => off y ys + off z zs)%Z xs nz nx (fun zx => X (snd zx, (y, fst zx)))).
      intros [z x] [z' x'] [Hz Hx] [Hz' Hx'] N. rewrite !A. apply D; [repeat split; assumption|repeat split; assumption|congruence].
    - intros y y' [z x] [z' x'] Hy Hy' N [Hz Hx] [Hz' Hx']. rewrite !A. apply D; [repeat split; assumption|repeat split; assumption|congruence].
    - intros y y' [z x] [z' x'] Hy Hy' N [Hz Hx] [Hz' Hx']. rewrite !A. apply D; [repeat split; assumption|repeat split; assumption|congruence].
    - intros [y [z x]] [Hy [Hz Hx]]. exists (x, (y, z)). repeat split; try assumption. exact (eq_sym (A y z x)).
    - intros [y [z x]] [Hy [Hz Hx]]. exists (x, (y, z)). repeat split; try assumption. exact (eq_sym (A y z x)).
    - intros [x [y z]] [Hx [Hy Hz]]. exists (y, (z, x)). repeat split; try assumption. exact (A y z x).
  Qed.

  Lemma xlines_oop (op : ptr -> ptr -> st -> option st) p ixs iys izs q oxs oys ozs nx nx' ny nz (T : (nat -> cpx) -> nat -> cpx) X :
    (forall p' q' x', (forall w w', w < nx' -> w' < nx' -> w <> w' -> apart q' (Z.of_nat w * oxs) q' (Z.of_nat w' * oxs)) ->
      (forall w k, w < nx' -> k < nx -> apart q' (Z.of_nat w * oxs) p' (Z.of_nat k * ixs)) ->
      eff (op p' q') (fun k => k < nx) p' (fun k => Z.of_nat k * ixs)%Z x' (fun k => k < nx') q' (fun k => Z.of_nat k * oxs)%Z (T x')) ->
    dist (ix3 nx' ny nz) q (at3 oxs oys ozs) -> disj (ix3 nx ny nz) p (at3 ixs iys izs) (ix3 nx' ny nz) q (at3 oxs oys ozs) ->
    eff (loop (fun y m => loop (fun z m' => op (padd p (off y iys + off z izs)) (padd q (off y oys + off z ozs)) m') 0 nz m) 0 ny)
      (ix3 nx ny nz) p (at3 ixs iys izs) X (ix3 nx' ny nz) q (at3 oxs oys ozs) (fun i => T (fun x => X (x, snd i)) (fst i)).
  Proof.
    intros Hop D DI.
    assert (A : forall xs ys zs y z x, (lin (fun z => off y ys + off z zs) xs (z, x) = at3 xs ys zs (x, (y, z)))%Z).
    { intros xs ys zs y z x. unfold lin, at3, at2, off. cbn [fst snd]. lia. }
    pose proof (eff_loop R (fun y m => loop (fun z m' => op (padd p (off y iys + off z izs)) (padd q (off y oys + off z ozs)) m') 0 nz m) ny
      (ix2 nz nx) p (fun y => lin (fun z => off y iys + off z izs)%Z ixs) (fun y zx => X (snd zx, (y, fst zx)))
      (ix2 nz nx') q (fun y => lin (fun z => off y oys + off z ozs)%Z oxs) (fun y zx => T (fun x => X (x, (y, fst zx))) (snd zx))) as H.
    refine (eff_reindex R _ _ _ _ _ _ _ _ _ _ _ _ _ _ _ (H _ _ _) _ _ _).
    - intros y Hy. apply (lines_oop R op p (fun z => off y iys + off z izs)%Z ixs q (fun z => off y oys + off z ozs)%Z oxs nz nx nx' T (fun zx => X (snd zx, (y, fst zx))) Hop).
      + intros [z x] [z' x'] [Hz Hx] [Hz' Hx'] N. rewrite !A. apply D; [repeat split; assumption|repeat split; assumption|congruence].
      + intros [z x] [z' x'] [Hz Hx] [Hz' Hx']. rewrite !A. apply DI; repeat split; assumption.
    - intros y y' [z x] [z' x'] Hy Hy' N [Hz Hx] [Hz' Hx']. rewrite !A. apply D; [repeat split; assumption|repeat split; assumption|congruence].
    - intros y y' [z x] [z' x'] Hy Hy' N [Hz Hx] [Hz' Hx']. rewrite !A. apply DI; repeat split; assumption.
    - intros [y [z x]] [Hy [Hz Hx]]. exists (x, (y, z)). repeat split; try assumption. exact (eq_sym (A _ _ _ y z x)).
    - intros [y [z x]] [Hy [Hz Hx]]. exists (x, (y, z)). repeat split; try assumption. exact (eq_sym (A _ _ _ y z x)).
    - intros [x [y z]] [Hx [Hy Hz]]. exists (y, (z, x)). repeat split; try assumption. exact (A _ _ _ y z x).
  Qed.

  (** Planes. *)
  Lemma at3_assoc xs ys zs x yz : at3 xs ys zs (x, yz) = (off x xs + at2 ys zs yz)%Z.
  Proof. reflexivity. Qed.
  Lemma dist_plane nx ny nz q xs ys zs x : x < nx -> dist (ix3 nx ny nz) q (at3 xs ys zs) -> dist (ix2 ny nz) (padd q (off x xs)) (at2 ys zs).
  Proof.
    intros Hx D yz yz' H H' N. apply apart_padd. apply (D (x, yz) (x, yz')); [split; assumption|split; assumption|congruence].
  Qed.
  Lemma planes_ip e q xs ys zs nx ny nz X : nreal R q -> dist (ix3 nx ny nz) q (at3 xs ys zs) ->
    eff (loop (fun x m => dft2_in_place R t e (padd q (off x xs)) ys zs ny nz m) 0 nx)
      (ix3 nx ny nz) q (at3 xs ys zs) X (ix3 nx ny nz) q (at3 xs ys zs)
      (fun i => DFT2 e ny nz (fun y z => X (fst i, (y, z))) (fst (snd i)) (snd (snd i))).
  Proof.
    intros NR D.
    pose proof (eff_loop R (fun x m => dft2_in_place R t e (padd q (off x xs)) ys zs ny nz m) nx
      (ix2 ny nz) q (fun x yz => off x xs + at2 ys zs yz)%Z (fun x yz => X (x, yz))
      (ix2 ny nz) q (fun x yz => off x xs + at2 ys zs yz)%Z (fun x yz => DFT2 e ny nz (fun y z => X (x, (y, z))) (fst yz) (snd yz))) as H.
    refine (eff_reindex R _ _ _ _ _ _ _ _ _ _ _ _ _ _ _ (H _ _ _) _ _ _).
    - intros x Hx. apply (eff_padd R (fun m => dft2_in_place R t e (padd q (off x xs)) ys zs ny nz m)).
      apply (dft2_ip_eff R t e (padd q (off x xs)) ys zs ny nz (fun yz => X (x, yz))); [apply padd_nreal, NR|]. apply (dist_plane nx); assumption.
    - intros x x' yz yz' Hx Hx' N Hy Hy'. apply (D (x, yz) (x', yz')); [split; assumption|split; assumption|congruence].
    - intros x x' yz yz' Hx Hx' N Hy Hy'. apply (D (x, yz) (x', yz')); [split; assumption|split; assumption|congruence].
    - intros [x yz] [Hx Hy]. exists (x, yz). repeat split; try assumption; apply Hy.
    - intros [x yz] [Hx Hy]. exists (x, yz). repeat split; try assumption; apply Hy.
    - intros [x yz] [Hx Hy]. exists (x, yz). repeat split; try assumption; apply Hy.
  Qed.
  Lemma planes_oop e p ixs iys izs q oxs oys ozs nx ny nz X : nreal R q -> dist (ix3 nx ny nz) q (at3 oxs oys ozs) ->
    disj (ix3 nx ny nz) p (at3 ixs iys izs) (ix3 nx ny nz) q (at3 oxs oys ozs) ->
    eff (loop (fun x m => dft2_out_of_place R t e (padd p (off x ixs)) iys izs (padd q (off x oxs)) oys ozs ny nz m) 0 nx)
      (ix3 nx ny nz) p (at3 ixs iys izs) X (ix3 nx ny nz) q (at3 oxs oys ozs)
      (fun i => DFT2 e ny nz (fun y z => X (fst i, (y, z))) (fst (snd i)) (snd (snd i))).
  Proof.
    intros NR D DI.
    pose proof (eff_loop R (fun x m => dft2_out_of_place R t e (padd p (off x ixs)) iys izs (padd q (off x oxs)) oys ozs ny nz m) nx
      (ix2 ny nz) p (fun x yz => off x ixs + at2 iys izs yz)%Z (fun x yz => X (x, yz))
      (ix2 ny nz) q (fun x yz => off x oxs + at2 oys ozs yz)%Z (fun x yz => DFT2 e ny nz (fun y z => X (x, (y, z))) (fst yz) (snd yz))) as H.
    refine (eff_reindex R _ _ _ _ _ _ _ _ _ _ _ _ _ _ _ (H _ _ _) _ _ _).
    - intros x Hx. apply (eff_padd R (fun m => dft2_out_of_place R t e (padd p (off x ixs)) iys izs (padd q (off x oxs)) oys ozs ny nz m)).
      apply (dft2_oop_eff R t e (padd p (off x ixs)) iys izs (padd q (off x oxs)) oys ozs ny nz (fun yz => X (x, yz))); [apply padd_nreal, NR|apply (dist_plane nx); assumption|].
      intros yz yz' Hy Hy'. apply apart_padd. apply (DI (x, yz) (x, yz')); split; assumption.
    - intros x x' yz yz' Hx Hx' N Hy Hy'. apply (D (x, yz) (x', yz')); [split; assumption|split; assumption|congruence].
    - intros x x' yz yz' Hx Hx' N Hy Hy'. apply (DI (x', yz') (x, yz)); split; assumption.
    - intros [x yz] [Hx Hy]. exists (x, yz). repeat split; try assumption; apply Hy.
    - intros [x yz] [Hx Hy]. exists (x, yz). repeat split; try assumption; apply Hy.
    - intros [x yz] [Hx Hy]. exists (x, yz). repeat split; try assumption; apply Hy.
  Qed.

  Definition ints3 q xs ys zs nx ny nz := (forall x, x < nx -> int_ok q (off x xs)) /\ (forall y z, y < ny -> z < nz -> int_ok q (off y ys + off z zs)).
  Lemma loop2_ext {S} (f g : nat -> nat -> S -> option S) n n' s : (forall i j s, i < n -> j < n' -> f i j s = g i j s) ->
    loop (fun i s => loop (f i) 0 n' s) 0 n s = loop (fun i s => loop (g i) 0 n' s) 0 n s.
  Proof. intros H. apply loop_ext. intros i s' Hi. apply loop_ext. intros j s'' Hj. apply H; lia. Qed.

  Lemma bind_ext {A B} (a : option A) (f g : A -> option B) : (forall x, f x = g x) -> bind a f = bind a g.
  Proof. intros H. destruct a; [apply H|reflexivity]. Qed.

  Lemma dft3_ip_eff e q xs ys zs nx ny nz X : nreal R q -> ints3 q xs ys zs nx ny nz -> dist (ix3 nx ny nz) q (at3 xs ys zs) ->
    eff (dft3_in_place R t e q xs ys zs nx ny nz) (ix3 nx ny nz) q (at3 xs ys zs) X (ix3 nx ny nz) q (at3 xs ys zs)
      (fun i => DFT3 e nx ny nz (fun x y z => X (x, (y, z))) (fst i) (fst (snd i)) (snd (snd i))).
  Proof.
    intros NR [IO1 IO2] D.
    refine (eff_ext R (fun m => m1 <- loop (fun x m => dft2_in_place R t e (padd q (off x xs)) ys zs ny nz m) 0 nx m;;
      loop (fun y m => loop (fun z m' => dft1_in_place R t e (padd q (off y ys + off z zs)) xs nx m') 0 nz m) 0 ny m1) _ _ _ _ _ _ _ _ _ _ _).
    { intros m. unfold dft3_in_place. rewrite (loop_ext (fun x m' => dft2_in_place R t e (poff q (off x xs)) ys zs ny nz m') (fun x m => dft2_in_place R t e (padd q (off x xs)) ys zs ny nz m)).
      - apply bind_ext. intros m1. apply loop2_ext. intros y z s Hy Hz. rewrite poff_padd by (apply IO2; assumption). reflexivity.
      - intros x m' Hx. rewrite poff_padd by (apply IO1; lia). reflexivity. }
    refine (eff_then R _ _ _ _ _ _ _ _ _ _ _ (planes_ip e q xs ys zs nx ny nz X NR D) _).
    refine (eff_val R _ _ _ _ _ _ _ _ _ _ (xlines_ip e q xs ys zs nx ny nz _ D) _).
    intros [u [v w]] _. f_equal. cbn [fst snd]. rewrite <- (DFT3_12 R t). apply (DFT_ext R t). intros x Hx. apply NR.
  Qed.
  Lemma dft3_oop_eff e p ixs iys izs q oxs oys ozs nx ny nz X : nreal R q ->
    (forall x, x < nx -> int_ok p (off x ixs)) -> ints3 q oxs oys ozs nx ny nz -> dist (ix3 nx ny nz) q (at3 oxs oys ozs) ->
    disj (ix3 nx ny nz) p (at3 ixs iys izs) (ix3 nx ny nz) q (at3 oxs oys ozs) ->
    eff (dft3_out_of_place R t e p ixs iys izs q oxs oys ozs nx ny nz) (ix3 nx ny nz) p (at3 ixs iys izs) X (ix3 nx ny nz) q (at3 oxs oys ozs)
      (fun i => DFT3 e nx ny nz (fun x y z => X (x, (y, z))) (fst i) (fst (snd i)) (snd (snd i))).
  Proof.
    intros NR IOp [IO1 IO2] D DI.
    refine (eff_ext R (fun m => m1 <- loop (fun x m => dft2_out_of_place R t e (padd p (off x ixs)) iys izs (padd q (off x oxs)) oys ozs ny nz m) 0 nx m;;
      loop (fun y m => loop (fun z m' => dft1_in_place R t e (padd q (off y oys + off z ozs)) oxs nx m') 0 nz m) 0 ny m1) _ _ _ _ _ _ _ _ _ _ _).
    { intros m. unfold dft3_out_of_place. rewrite (loop_ext (fun x m' => dft2_out_of_place R t e (poff p (off x ixs)) iys izs (poff q (off x oxs)) oys ozs ny nz m') (fun x m => dft2_out_of_place R t e (padd p (off x ixs)) iys izs (padd q (off x oxs)) oys ozs ny nz m)).
      - apply bind_ext. intros m1. apply loop2_ext. intros y z s Hy Hz. rewrite poff_padd by (apply IO2; assumption). reflexivity.
      - intros x m' Hx. rewrite !poff_padd by (apply IO1 || apply IOp; lia). reflexivity. }
    refine (eff_then R _ _ _ _ _ _ _ _ _ _ _ (planes_oop e p ixs iys izs q oxs oys ozs nx ny nz X NR D DI) _).
    refine (eff_val R _ _ _ _ _ _ _ _ _ _ (xlines_ip e q oxs oys ozs nx ny nz _ D) _).
    intros [u [v w]] _. f_equal. cbn [fst snd]. rewrite <- (DFT3_12 R t). apply (DFT_ext R t). intros x Hx. apply NR.
  Qed.

  Lemma rdft3_eff0 p ixs iys izs q oxs oys ozs nx ny nz X : nreal R q -> ints3 q oxs oys ozs (nx / 2 + 1) ny nz ->
    dist (ix3 (nx / 2 + 1) ny nz) q (at3 oxs oys ozs) ->
    disj (ix3 nx ny nz) p (at3 ixs iys izs) (ix3 (nx / 2 + 1) ny nz) q (at3 oxs oys ozs) ->
    eff (rdft3 R t 0 p ixs iys izs q oxs oys ozs nx ny nz) (ix3 nx ny nz) p (at3 ixs iys izs) X (ix3 (nx / 2 + 1) ny nz) q (at3 oxs oys ozs)
      (fun i => DFT3 (-1) nx ny nz (fun x y z => X (x, (y, z))) (fst i) (fst (snd i)) (snd (snd i))).
  Proof.
    intros NR [IO1 IO2] D DI.
    refine (eff_ext R (fun m => m1 <- loop (fun y m => loop (fun z m' => rdft1 R t (padd p (off y iys + off z izs)) ixs (padd q (off y oys + off z ozs)) oxs nx m') 0 nz m) 0 ny m;;
      loop (fun x m => dft2_in_place R t (-1) (padd q (off x oxs)) oys ozs ny nz m) 0 (nx / 2 + 1) m1) _ _ _ _ _ _ _ _ _ _ _).
    { intros m. unfold rdft3. rewrite (loop2_ext (fun y z m'' => rdft1 R t (padd p (off y iys + off z izs)) ixs (poff q (off y oys + off z ozs)) oxs nx m'') (fun y z m'' => rdft1 R t (padd p (off y iys + off z izs)) ixs (padd q (off y oys + off z ozs)) oxs nx m'')).
      - apply bind_ext. intros m1. apply loop_ext. intros x m' Hx. rewrite poff_padd by (apply IO1; lia). reflexivity.
      - intros y z s Hy Hz. rewrite poff_padd by (apply IO2; assumption). reflexivity. }
    refine (eff_then R _ _ _ _ _ _ _ _ _ _ _ (xlines_oop (fun p' q' m => rdft1 R t p' ixs q' oxs nx m) p ixs iys izs q oxs oys ozs nx (nx / 2 + 1) ny nz (DFT (-1) nx) X _ D DI) _).
    - intros p' q' x' H1 H2. apply rdft1_eff; assumption.
    - refine (eff_val R _ _ _ _ _ _ _ _ _ _ (planes_ip (-1) q oxs oys ozs (nx / 2 + 1) ny nz _ NR D) _).
      intros [u [v w]] _. f_equal. cbn [fst snd]. rewrite <- DFT3_21. apply (DFT2_ext R t). intros y z Hy Hz. apply NR.
  Qed.

  Notation herm := (herm R).
  Lemma crdft3_eff0 p ixs iys izs q oxs oys ozs nx ny nz X : ntmp p -> ntmp q -> (forall x, x < nx / 2 + 1 -> int_ok p (off x ixs)) ->
    dist (ix3 nx ny nz) q (at3 oxs oys ozs) ->
    eff (crdft3 R t 0 p ixs iys izs q oxs oys ozs nx ny nz) (ix3 (nx / 2 + 1) ny nz) p (at3 ixs iys izs) X (ix3 nx ny nz) q (at3 oxs oys ozs)
      (fun i => DFT 1 nx (herm nx (fun x => DFT2 1 ny nz (fun y z => X (x, (y, z))) (fst (snd i)) (snd (snd i)))) (fst i)).
  Proof.
    intros Np Nq IO D. unfold crdft3.
    refine (eff_tmp R _ _ ((nx / 2 + 1) * ny * nz) (ix3 (nx / 2 + 1) ny nz) p (at3 ixs iys izs) X (ix3 (nx / 2 + 1) ny nz) (at3 (Z.of_nat (ny * nz)) 1 (Z.of_nat ny))
      (fun i => DFT2 1 ny nz (fun y z => X (fst i, (y, z))) (fst (snd i)) (snd (snd i))) _ _ _ _ Np Nq _ _ _).
    - refine (eff_ext R (loop (fun x m => dft2_out_of_place R t 1 (padd p (off x ixs)) iys izs (padd (Tmp 0) (off x (Z.of_nat (ny * nz)))) 1 (Z.of_nat ny) ny nz m) 0 (nx / 2 + 1)) _ _ _ _ _ _ _ _ _ _ _).
      { intros m. apply loop_ext. intros x m' Hx. rewrite poff_padd by (apply IO; lia). f_equal. f_equal. unfold off. lia. }
      apply planes_oop; [intros v; reflexivity| |apply tmp_disj1, Np].
      apply tmp_dist. intros [x [y z]] [x' [y' z']] (Hx & Hy & Hz) (Hx' & Hy' & Hz') E. unfold at3, at2, off in E. cbn [fst snd] in *.
      destruct (grid_inj (ny * nz) x x' (z * ny + y) (z' * ny + y') ltac:(nia) ltac:(nia) ltac:(lia)) as [-> E2].
      destruct (grid_inj ny z z' y y' Hy Hy' E2) as [-> ->]. reflexivity.
    - refine (eff_ext R (loop (fun y m => loop (fun z m' => crdft1 R t (padd (Tmp 0) (off y 1 + off z (Z.of_nat ny))) (Z.of_nat (ny * nz)) (padd q (off y oys + off z ozs)) oxs nx m') 0 nz m) 0 ny) _ _ _ _ _ _ _ _ _ _ _).
      { intros m. apply loop2_ext. intros y z m' Hy Hz. f_equal. f_equal. unfold off. lia. }
      apply (xlines_oop (fun p' q' m => crdft1 R t p' (Z.of_nat (ny * nz)) q' oxs nx m) (Tmp 0) (Z.of_nat (ny * nz)) 1 (Z.of_nat ny) q oxs oys ozs (nx / 2 + 1) nx ny nz
        (fun x => DFT 1 nx (herm nx x)) (fun i => DFT2 1 ny nz (fun y z => X (fst i, (y, z))) (fst (snd i)) (snd (snd i)))).
      + intros p' q' x' H1 H2. apply crdft1_eff; assumption.
      + exact D.
      + apply tmp_disj2, Nq.
    - intros [x [y z]] (Hx & Hy & Hz). unfold at3, at2, off. cbn [fst snd] in *.
      assert (H : x * (ny * nz) + (z * ny + y) < (nx / 2 + 1) * (ny * nz)).
      { assert (z * ny + y < ny * nz) by nia. generalize dependent (ny * nz). intros. nia. }
      rewrite <- Nat.mul_assoc. lia.
  Qed.

  (** Permutations of the axes. *)
  Definition s12 (i : I3) : I3 := (fst (snd i), (fst i, snd (snd i))).
  Definition s23 (i : I3) : I3 := (fst i, (snd (snd i), fst (snd i))).
  Lemma at3_s12 xs ys zs i : at3 ys xs zs (s12 i) = at3 xs ys zs i.
  Proof. destruct i as [x [y z]]. unfold at3, at2, s12. cbn [fst snd]. lia. Qed.
  Lemma at3_s23 xs ys zs i : at3 xs zs ys (s23 i) = at3 xs ys zs i.
  Proof. destruct i as [x [y z]]. unfold at3, at2, s23. cbn [fst snd]. lia. Qed.
  Lemma dist_s12 q xs ys zs nx ny nz : dist (ix3 nx ny nz) q (at3 xs ys zs) -> dist (ix3 ny nx nz) q (at3 ys xs zs).
  Proof.
    intros D [y [x z]] [y' [x' z']] (Hy & Hx & Hz) (Hy' & Hx' & Hz') N. rewrite <- (at3_s12 ys xs zs), <- (at3_s12 ys xs zs (y', _)).
    apply D; [repeat split; assumption|repeat split; assumption|]. unfold s12; cbn; congruence.
  Qed.
  Lemma dist_s23 q xs ys zs nx ny nz : dist (ix3 nx ny nz) q (at3 xs ys zs) -> dist (ix3 nx nz ny) q (at3 xs zs ys).
  Proof.
    intros D [x [z y]] [x' [z' y']] (Hx & Hz & Hy) (Hx' & Hz' & Hy') N. rewrite <- (at3_s23 xs zs ys), <- (at3_s23 xs zs ys (x', _)).
    apply D; [repeat split; assumption|repeat split; assumption|]. unfold s23; cbn; congruence.
  Qed.
  Lemma disj_s12 p ixs iys izs q oxs oys ozs nx ny nz nx' ny' nz' : disj (ix3 nx ny nz) p (at3 ixs iys izs) (ix3 nx' ny' nz') q (at3 oxs oys ozs) ->
    disj (ix3 ny nx nz) p (at3 iys ixs izs) (ix3 ny' nx' nz') q (at3 oys oxs ozs).
  Proof.
    intros D [y [x z]] [y' [x' z']] (Hy & Hx & Hz) (Hy' & Hx' & Hz'). rewrite <- (at3_s12 iys ixs izs), <- (at3_s12 oys oxs ozs).
    apply D; repeat split; assumption.
  Qed.
  Lemma disj_s23 p ixs iys izs q oxs oys ozs nx ny nz nx' ny' nz' : disj (ix3 nx ny nz) p (at3 ixs iys izs) (ix3 nx' ny' nz') q (at3 oxs oys ozs) ->
    disj (ix3 nx nz ny) p (at3 ixs izs iys) (ix3 nx' nz' ny') q (at3 oxs ozs oys).
  Proof.
    intros D [x [z y]] [x' [z' y']] (Hx & Hz & Hy) (Hx' & Hz' & Hy'). rewrite <- (at3_s23 ixs izs iys), <- (at3_s23 oxs ozs oys).
    apply D; repeat split; assumption.
  Qed.
  Lemma eff_s12 op nx ny nz nx' ny' nz' p ixs iys izs X q oxs oys ozs y y' :
    eff op (ix3 ny nx nz) p (at3 iys ixs izs) (fun i => X (s12 i)) (ix3 ny' nx' nz') q (at3 oys oxs ozs) y ->
    (forall i, ix3 ny' nx' nz' i -> y i = y' (s12 i)) ->
    eff op (ix3 nx ny nz) p (at3 ixs iys izs) X (ix3 nx' ny' nz') q (at3 oxs oys ozs) y'.
  Proof.
    intros H Hy. refine (eff_reindex R _ _ _ _ _ _ _ _ _ _ _ _ _ _ _ H _ _ _).
    - intros i (A & B & C). exists (s12 i). repeat split; try assumption. apply at3_s12.
    - intros i (A & B & C). exists (s12 i). repeat split; try assumption. apply at3_s12.
    - intros [x [v z]] (A & B & C). exists (v, (x, z)). split; [repeat split; assumption|]. split; [exact (at3_s12 oxs oys ozs (x, (v, z)))|].
      rewrite Hy by (repeat split; assumption). reflexivity.
  Qed.
  Lemma eff_s23 op nx ny nz nx' ny' nz' p ixs iys izs X q oxs oys ozs y y' :
    eff op (ix3 nx nz ny) p (at3 ixs izs iys) (fun i => X (s23 i)) (ix3 nx' nz' ny') q (at3 oxs ozs oys) y ->
    (forall i, ix3 nx' nz' ny' i -> y i = y' (s23 i)) ->
    eff op (ix3 nx ny nz) p (at3 ixs iys izs) X (ix3 nx' ny' nz') q (at3 oxs oys ozs) y'.
  Proof.
    intros H Hy. refine (eff_reindex R _ _ _ _ _ _ _ _ _ _ _ _ _ _ _ H _ _ _).
    - intros i (A & B & C). exists (s23 i). repeat split; try assumption. apply at3_s23.
    - intros i (A & B & C). exists (s23 i). repeat split; try assumption. apply at3_s23.
    - intros [x [v z]] (A & B & C). exists (x, (z, v)). split; [repeat split; assumption|]. split; [exact (at3_s23 oxs oys ozs (x, (v, z)))|].
      rewrite Hy by (repeat split; assumption). reflexivity.
  Qed.

  Lemma rdft3_eff1 p ixs iys izs q oxs oys ozs nx ny nz X : nreal R q -> ints3 q oys oxs ozs (ny / 2 + 1) nx nz ->
    dist (ix3 nx (ny / 2 + 1) nz) q (at3 oxs oys ozs) ->
    disj (ix3 nx ny nz) p (at3 ixs iys izs) (ix3 nx (ny / 2 + 1) nz) q (at3 oxs oys ozs) ->
    eff (rdft3 R t 1 p ixs iys izs q oxs oys ozs nx ny nz) (ix3 nx ny nz) p (at3 ixs iys izs) X (ix3 nx (ny / 2 + 1) nz) q (at3 oxs oys ozs)
      (fun i => DFT3 (-1) nx ny nz (fun x y z => X (x, (y, z))) (fst i) (fst (snd i)) (snd (snd i))).
  Proof.
    intros NR IO D DI.
    refine (eff_s12 _ nx ny nz nx (ny / 2 + 1) nz p ixs iys izs X q oxs oys ozs _ _ (rdft3_eff0 p iys ixs izs q oys oxs ozs ny nx nz _ NR IO (dist_s12 _ _ _ _ _ _ _ D) (disj_s12 _ _ _ _ _ _ _ _ _ _ _ _ _ _ DI)) _).
    intros [v [u w]] _. unfold s12. cbn [fst snd]. rewrite DFT3_s12. reflexivity.
  Qed.
  Lemma rdft3_eff2 p ixs iys izs q oxs oys ozs nx ny nz X : nreal R q -> ints3 q ozs oxs oys (nz / 2 + 1) nx ny ->
    dist (ix3 nx ny (nz / 2 + 1)) q (at3 oxs oys ozs) ->
    disj (ix3 nx ny nz) p (at3 ixs iys izs) (ix3 nx ny (nz / 2 + 1)) q (at3 oxs oys ozs) ->
    eff (rdft3 R t 2 p ixs iys izs q oxs oys ozs nx ny nz) (ix3 nx ny nz) p (at3 ixs iys izs) X (ix3 nx ny (nz / 2 + 1)) q (at3 oxs oys ozs)
      (fun i => DFT3 (-1) nx ny nz (fun x y z => X (x, (y, z))) (fst i) (fst (snd i)) (snd (snd i))).
  Proof.
    intros NR IO D DI.
    pose proof (rdft3_eff0 p izs ixs iys q ozs oxs oys nz nx ny (fun i => X (s23 (s12 i))) NR IO
      (dist_s12 _ _ _ _ _ _ _ (dist_s23 _ _ _ _ _ _ _ D)) (disj_s12 _ _ _ _ _ _ _ _ _ _ _ _ _ _ (disj_s23 _ _ _ _ _ _ _ _ _ _ _ _ _ _ DI))) as H.
    refine (eff_s23 _ nx ny nz nx ny (nz / 2 + 1) p ixs iys izs X q oxs oys ozs
      (fun i => DFT3 (-1) nz nx ny (fun z x y => X (x, (y, z))) (fst (snd i)) (fst i) (snd (snd i))) _ _ _).
    - refine (eff_s12 _ nx nz ny nx (nz / 2 + 1) ny p ixs izs iys (fun i => X (s23 i)) q oxs ozs oys _ _ H _).
      intros [w [u v]] _. reflexivity.
    - intros [u [w v]] _. unfold s23. cbn [fst snd]. rewrite DFT3_s12, DFT3_s23. reflexivity.
  Qed.

  Lemma crdft3_eff1 p ixs iys izs q oxs oys ozs nx ny nz X : ntmp p -> ntmp q -> (forall y, y < ny / 2 + 1 -> int_ok p (off y iys)) ->
    dist (ix3 nx ny nz) q (at3 oxs oys ozs) ->
    eff (crdft3 R t 1 p ixs iys izs q oxs oys ozs nx ny nz) (ix3 nx (ny / 2 + 1) nz) p (at3 ixs iys izs) X (ix3 nx ny nz) q (at3 oxs oys ozs)
      (fun i => DFT 1 ny (herm ny (fun y => DFT2 1 nx nz (fun x z => X (x, (y, z))) (fst i) (snd (snd i)))) (fst (snd i))).
  Proof.
    intros Np Nq IO D.
    refine (eff_s12 _ nx (ny / 2 + 1) nz nx ny nz p ixs iys izs X q oxs oys ozs _ _ (crdft3_eff0 p iys ixs izs q oys oxs ozs ny nx nz _ Np Nq IO (dist_s12 _ _ _ _ _ _ _ D)) _).
    intros [v [u w]] _. reflexivity.
  Qed.
  Lemma crdft3_eff2 p ixs iys izs q oxs oys ozs nx ny nz X : ntmp p -> ntmp q -> (forall z, z < nz / 2 + 1 -> int_ok p (off z izs)) ->
    dist (ix3 nx ny nz) q (at3 oxs oys ozs) ->
    eff (crdft3 R t 2 p ixs iys izs q oxs oys ozs nx ny nz) (ix3 nx ny (nz / 2 + 1)) p (at3 ixs iys izs) X (ix3 nx ny nz) q (at3 oxs oys ozs)
      (fun i => DFT 1 nz (herm nz (fun z => DFT2 1 nx ny (fun x y => X (x, (y, z))) (fst i) (fst (snd i)))) (snd (snd i))).
  Proof.
    intros Np Nq IO D.
    pose proof (crdft3_eff0 p izs iys ixs q ozs oys oxs nz ny nx (fun i => X (s12 (s23 (s12 i)))) Np Nq IO
      (dist_s12 _ _ _ _ _ _ _ (dist_s23 _ _ _ _ _ _ _ (dist_s12 _ _ _ _ _ _ _ D)))) as H.
    refine (eff_s12 _ nx ny (nz / 2 + 1) nx ny nz p ixs iys izs X q oxs oys ozs
      (fun i => DFT 1 nz (herm nz (fun z => DFT2 1 nx ny (fun x y => X (x, (y, z))) (fst (snd i)) (fst i))) (snd (snd i))) _ _ _).
    - refine (eff_s23 _ ny nx (nz / 2 + 1) ny nx nz p iys ixs izs (fun i => X (s12 i)) q oys oxs ozs
        (fun i => DFT 1 nz (herm nz (fun z => DFT2 1 nx ny (fun x y => X (x, (y, z))) (snd (snd i)) (fst i))) (fst (snd i))) _ _ _).
      + refine (eff_s12 _ ny (nz / 2 + 1) nx ny nz nx p iys izs ixs (fun i => X (s12 (s23 i))) q oys ozs oxs _ _ H _).
        intros [w [v u]] _. unfold s12, s23. cbn [fst snd]. apply (DFT_ext R t). intros k Hk. unfold Dft.herm.
        destruct (k <=? nz / 2); [|f_equal]; rewrite (DFT2_swp R t); reflexivity.
      + intros [v [w u]] _. reflexivity.
    - intros [v [u w]] _. reflexivity.
  Qed.
End Three.
