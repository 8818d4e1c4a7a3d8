(** The statements of DftProps, proved. Generated together with it. *)
From Coq Require Import ZArith List Bool Arith Lia Ring.
From Verif Require Import Base Dft DftProofs DftMulti DftThree DftInv DftExamples.
Import ListNotations.
Local Open Scope nat_scope.

Lemma one_l (R : CRing) (v : Cr R) : (ofR R 1 * v)%cr = v.
Proof. destruct v as [a b]. unfold ofR. cbn. pose proof (r_th R) as th. f_equal.
  - rewrite (Rsub_def th), (Rmul_1_l th). assert (E : forall z : R, (0 * z)%cr = 0%cr) by (intros z; apply (ARmul_0_l (Rth_ARth (Eqsth R) (Eq_ext radd rmul ropp) th))). rewrite E.
    assert (O : (- (0 : R))%cr = 0%cr) by (rewrite <- (Radd_0_l th (- 0)%cr); apply (Ropp_def th)). rewrite O, (Radd_comm th). apply (Radd_0_l th).
  - rewrite (Rmul_1_l th). assert (E : forall z : R, (0 * z)%cr = 0%cr) by (intros z; apply (ARmul_0_l (Rth_ARth (Eqsth R) (Eq_ext radd rmul ropp) th))). rewrite E, (Radd_comm th). apply (Radd_0_l th).
Qed.
Section Asc.
  Context (R : CRing). Add Ring Rr : (r_th R). Add Ring Cc : (r_th (Cr R)).
  Lemma rasc (a b c : R) : (a * (b * c))%cr = (a * b * c)%cr. Proof. ring. Qed.
  Lemma rasc2 (a b c : R) : (b * (a * c))%cr = (a * b * c)%cr. Proof. ring. Qed.
  Lemma rasc3a (a b c x : R) : (a * (b * c * x))%cr = (a * b * c * x)%cr. Proof. ring. Qed.
  Lemma rasc3b (a b c x : R) : (b * (a * c * x))%cr = (a * b * c * x)%cr. Proof. ring. Qed.
  Lemma rasc3c (a b c x : R) : (c * (a * b * x))%cr = (a * b * c * x)%cr. Proof. ring. Qed.
  Lemma round_val (t : trig R) n (ex : exact R t n) sf si (x : nat -> Cr R) k : (fst (nat_r R n) * (sf * si))%cr = 1%cr -> k < n ->
    (DFT R t 1 n (fun w => DFT R t (-1) n x w * ofR R sf) k * ofR R si)%cr = x k.
  Proof.
    intros Hs Hk. transitivity (ofR R (sf * si)%cr * DFT R t 1 n (DFT R t (-1) n x) k)%cr.
    - transitivity (DFT R t 1 n (fun w => ofR R sf * DFT R t (-1) n x w)%cr k * ofR R si)%cr.
      + f_equal. apply DFT_ext. intros w _. ring.
      + rewrite DFT_lin, ofR_mul. ring.
    - pose proof (DFT_inv R t n ex 1 x k (or_introl eq_refl) Hk) as X. change (- (1))%Z with (-1)%Z in X. rewrite X.
      destruct (nr_real R n) as [v E]. rewrite E in *. cbn [fst ofR] in Hs.
      replace (ofR R (sf * si) * (ofR R v * x k))%cr with (ofR R v * ofR R (sf * si) * x k)%cr by ring.
      rewrite <- ofR_mul, Hs. apply one_l.
  Qed.
  (** The front end: the backend, then the scale factor. *)
  Lemma front_ok {J} (op op' : st R -> option (st R)) ne1 sc (dJ : J -> Prop) p a x n q s y :
    (ne1 = false -> sc = 1%cr) -> dist (ix1 n) q (at1 s) -> nreal R q \/ (forall w, ix1 n w -> exists v, y w = ofR R v) ->
    computes R op dJ p a x (ix1 n) q (at1 s) y ->
    (forall m, op' m = (m1 <- op m;; scale_view R ne1 sc q 0 s 1 n m1)) ->
    computes R op' dJ p a x (ix1 n) q (at1 s) (fun w => y w * ofR R sc)%cr.
  Proof.
    intros H1 D NR H Eop m I Rm. destruct (H m I Rm) as (m1 & E1 & G1 & O1).
    assert (A : forall c, at2 0 s (0, c) = at1 s c) by (intros c; unfold at2, at1, off; cbn [fst snd]; lia).
    destruct (scale_eff R ne1 sc q 0 s 1 n (fun i => y (snd i))) with (m := m1) as (m2 & E2 & G2 & O2).
    - destruct NR as [NR|NR]; [left; exact NR|right]. intros [i c] [Hi Hc]. apply NR. exact Hc.
    - intros [i c] [i' c'] [Hi Hc] [Hi' Hc'] N. cbn [fst snd] in *. assert (i = 0) by lia. assert (i' = 0) by lia. subst i i'. rewrite !A. apply D; [exact Hc|exact Hc'|congruence].
    - exact H1.
    - intros [i c] [Hi Hc]. cbn [fst snd] in *. assert (i = 0) by lia. subst i. rewrite A. apply G1. exact Hc.
    - intros [i c] [Hi Hc]. cbn [fst snd] in *. assert (i = 0) by lia. subst i. rewrite A. apply O1, Rm. exact Hc.
    - exists m2. rewrite Eop, E1. cbn [bind]. split; [exact E2|]. split; [|split].
      + intros c Hc. rewrite <- A. apply (G2 (0, c)). split; [cbn; lia|exact Hc].
      + intros c Hc. rewrite <- (proj1 O1 c Hc). apply (proj1 O2). intros [i k] [Hi Hk]. cbn [fst snd] in *. assert (i = 0) by lia. subst i. rewrite A. apply Hc. exact Hk.
      + intros p' i X. apply (proj2 O2), (proj2 O1), X.
  Qed.
End Asc.

Lemma C50_one_dim_lemma : forall (R : CRing) (t : trig R) e p sp q sq l x,
  cpx_ptr p -> cpx_ptr q -> dist (ix1 l) q (at1 sq) -> disj (ix1 l) p (at1 sp) (ix1 l) q (at1 sq) ->
  computes R (dft1_out_of_place R t e p sp q sq l) (ix1 l) p (at1 sp) x (ix1 l) q (at1 sq) (DFT R t e l x).
Proof.
  intros R t e p sp q sq l x _ C D DI. apply (eff_cpx R _ _ _ _ _ _ _ _ _ C). apply dft1_oop_eff.
  - intros w w' Hw Hw' N. exact (D w w' Hw Hw' N).
  - intros w k Hw Hk. exact (DI k w Hk Hw).
Qed.

Lemma C50_one_dim_in_place_lemma : forall (R : CRing) (t : trig R) e q s l x,
  cpx_ptr q -> dist (ix1 l) q (at1 s) ->
  computes R (dft1_in_place R t e q s l) (ix1 l) q (at1 s) x (ix1 l) q (at1 s) (DFT R t e l x).
Proof.
  intros R t e q s l x C D. apply (eff_cpx R _ _ _ _ _ _ _ _ _ C). apply dft1_ip_eff. intros w w' Hw Hw' N. exact (D w w' Hw Hw' N).
Qed.

Lemma C50_real_to_complex_lemma : forall (R : CRing) (t : trig R) p sp q sq l x,
  real_ptr p -> cpx_ptr q -> dist (ix1 (l / 2 + 1)) q (at1 sq) -> disj (ix1 l) p (at1 sp) (ix1 (l / 2 + 1)) q (at1 sq) ->
  computes R (rdft1 R t p sp q sq l) (ix1 l) p (at1 sp) x (ix1 (l / 2 + 1)) q (at1 sq) (DFT R t (-1) l x).
Proof.
  intros R t p sp q sq l x _ C D DI. apply (eff_cpx R _ _ _ _ _ _ _ _ _ C). apply rdft1_eff.
  - intros w w' Hw Hw' N. exact (D w w' Hw Hw' N).
  - intros w k Hw Hk. exact (DI k w Hk Hw).
Qed.

Lemma C50_complex_to_real_lemma : forall (R : CRing) (t : trig R) p sp q sq l x,
  cpx_ptr p -> real_ptr q -> dist (ix1 l) q (at1 sq) -> disj (ix1 (l / 2 + 1)) p (at1 sp) (ix1 l) q (at1 sq) ->
  computes R (crdft1 R t p sp q sq l) (ix1 (l / 2 + 1)) p (at1 sp) x (ix1 l) q (at1 sq) (fun w => ofR R (fst (DFT R t 1 l (herm R l x) w))).
Proof.
  intros R t p sp q sq l x _ C D DI. apply (eff_real R _ _ _ _ _ _ _ _ _ C). apply crdft1_eff.
  - intros w w' Hw Hw' N. exact (D w w' Hw Hw' N).
  - intros w k Hw Hk. exact (DI k w Hk Hw).
Qed.

Lemma C50_two_dim_lemma : forall (R : CRing) (t : trig R) e p irs ics q ors ocs rows cols x,
  cpx_ptr p -> cpx_ptr q -> dist (ix2 rows cols) q (at2 ors ocs) -> disj (ix2 rows cols) p (at2 irs ics) (ix2 rows cols) q (at2 ors ocs) ->
  computes R (dft2_out_of_place R t e p irs ics q ors ocs rows cols) (ix2 rows cols) p (at2 irs ics) x (ix2 rows cols) q (at2 ors ocs)
    (fun rc => DFT2 R t e rows cols (fun r c => x (r, c)) (fst rc) (snd rc)).
Proof.
  intros R t e p irs ics q ors ocs rows cols x _ C D DI. apply (eff_cpx R _ _ _ _ _ _ _ _ _ C). apply dft2_oop_eff; [apply cpx_nreal, C|exact D|exact DI].
Qed.

Lemma C50_two_dim_in_place_lemma : forall (R : CRing) (t : trig R) e q rs cstr rows cols x,
  cpx_ptr q -> dist (ix2 rows cols) q (at2 rs cstr) ->
  computes R (dft2_in_place R t e q rs cstr rows cols) (ix2 rows cols) q (at2 rs cstr) x (ix2 rows cols) q (at2 rs cstr)
    (fun rc => DFT2 R t e rows cols (fun r c => x (r, c)) (fst rc) (snd rc)).
Proof.
  intros R t e q rs cstr rows cols x C D. apply (eff_cpx R _ _ _ _ _ _ _ _ _ C). apply dft2_ip_eff; [apply cpx_nreal, C|exact D].
Qed.

Lemma C50_two_dim_real_axis0_lemma : forall (R : CRing) (t : trig R) p irs ics q ors ocs rows cols x,
  real_ptr p -> cpx_ptr q -> dist (ix2 (rows / 2 + 1) cols) q (at2 ors ocs) -> disj (ix2 rows cols) p (at2 irs ics) (ix2 (rows / 2 + 1) cols) q (at2 ors ocs) ->
  computes R (rdft2 R t 0 p irs ics q ors ocs rows cols) (ix2 rows cols) p (at2 irs ics) x (ix2 (rows / 2 + 1) cols) q (at2 ors ocs)
    (fun rc => DFT2 R t (-1) rows cols (fun r c => x (r, c)) (fst rc) (snd rc)).
Proof.
  intros R t p irs ics q ors ocs rows cols x _ C D DI. apply (eff_cpx R _ _ _ _ _ _ _ _ _ C). apply rdft2_eff0; [apply cpx_nreal, C|exact D|exact DI].
Qed.

Lemma C50_two_dim_real_axis1_lemma : forall (R : CRing) (t : trig R) p irs ics q ors ocs rows cols x,
  real_ptr p -> cpx_ptr q -> dist (ix2 rows (cols / 2 + 1)) q (at2 ors ocs) -> disj (ix2 rows cols) p (at2 irs ics) (ix2 rows (cols / 2 + 1)) q (at2 ors ocs) ->
  computes R (rdft2 R t 1 p irs ics q ors ocs rows cols) (ix2 rows cols) p (at2 irs ics) x (ix2 rows (cols / 2 + 1)) q (at2 ors ocs)
    (fun rc => DFT2 R t (-1) rows cols (fun r c => x (r, c)) (fst rc) (snd rc)).
Proof.
  intros R t p irs ics q ors ocs rows cols x _ C D DI. apply (eff_cpx R _ _ _ _ _ _ _ _ _ C). apply rdft2_eff1; [apply cpx_nreal, C|exact D|exact DI].
Qed.

Lemma C50_three_dim_lemma : forall (R : CRing) (t : trig R) e p ixs iys izs q oxs oys ozs nx ny nz X,
  cpx_ptr p -> cpx_ptr q ->
  (forall x, x < nx -> int_ok p (off x ixs)) -> (forall x, x < nx -> int_ok q (off x oxs)) ->
  (forall y z, y < ny -> z < nz -> int_ok q (off y oys + off z ozs)) ->
  dist (ix3 nx ny nz) q (at3 oxs oys ozs) -> disj (ix3 nx ny nz) p (at3 ixs iys izs) (ix3 nx ny nz) q (at3 oxs oys ozs) ->
  computes R (dft3_out_of_place R t e p ixs iys izs q oxs oys ozs nx ny nz) (ix3 nx ny nz) p (at3 ixs iys izs) X (ix3 nx ny nz) q (at3 oxs oys ozs)
    (fun i => DFT3 R t e nx ny nz (fun x y z => X (x, (y, z))) (fst i) (fst (snd i)) (snd (snd i))).
Proof.
  intros R t e p ixs iys izs q oxs oys ozs nx ny nz X _ C I1 I2 I3 D DI. apply (eff_cpx R _ _ _ _ _ _ _ _ _ C). apply dft3_oop_eff; [apply cpx_nreal, C|exact I1|split; assumption|exact D|exact DI].
Qed.

Lemma C50_three_dim_in_place_lemma : forall (R : CRing) (t : trig R) e q xs ys zs nx ny nz X,
  cpx_ptr q -> (forall x, x < nx -> int_ok q (off x xs)) -> (forall y z, y < ny -> z < nz -> int_ok q (off y ys + off z zs)) ->
  dist (ix3 nx ny nz) q (at3 xs ys zs) ->
  computes R (dft3_in_place R t e q xs ys zs nx ny nz) (ix3 nx ny nz) q (at3 xs ys zs) X (ix3 nx ny nz) q (at3 xs ys zs)
    (fun i => DFT3 R t e nx ny nz (fun x y z => X (x, (y, z))) (fst i) (fst (snd i)) (snd (snd i))).
Proof.
  intros R t e q xs ys zs nx ny nz X C I1 I2 D. apply (eff_cpx R _ _ _ _ _ _ _ _ _ C). apply dft3_ip_eff; [apply cpx_nreal, C|split; assumption|exact D].
Qed.

Lemma C50_three_dim_real_axis0_lemma : forall (R : CRing) (t : trig R) p ixs iys izs q oxs oys ozs nx ny nz X,
  real_ptr p -> cpx_ptr q -> (forall x, x < nx / 2 + 1 -> int_ok q (off x oxs)) -> (forall y z, y < ny -> z < nz -> int_ok q (off y oys + off z ozs)) ->
  dist (ix3 (nx / 2 + 1) ny nz) q (at3 oxs oys ozs) -> disj (ix3 nx ny nz) p (at3 ixs iys izs) (ix3 (nx / 2 + 1) ny nz) q (at3 oxs oys ozs) ->
  computes R (rdft3 R t 0 p ixs iys izs q oxs oys ozs nx ny nz) (ix3 nx ny nz) p (at3 ixs iys izs) X (ix3 (nx / 2 + 1) ny nz) q (at3 oxs oys ozs)
    (fun i => DFT3 R t (-1) nx ny nz (fun x y z => X (x, (y, z))) (fst i) (fst (snd i)) (snd (snd i))).
Proof.
  intros R t p ixs iys izs q oxs oys ozs nx ny nz X _ C I1 I2 D DI. apply (eff_cpx R _ _ _ _ _ _ _ _ _ C). apply rdft3_eff0; [apply cpx_nreal, C|split; assumption|exact D|exact DI].
Qed.

Lemma C50_three_dim_real_axis1_lemma : forall (R : CRing) (t : trig R) p ixs iys izs q oxs oys ozs nx ny nz X,
  real_ptr p -> cpx_ptr q -> (forall y, y < ny / 2 + 1 -> int_ok q (off y oys)) -> (forall x z, x < nx -> z < nz -> int_ok q (off x oxs + off z ozs)) ->
  dist (ix3 nx (ny / 2 + 1) nz) q (at3 oxs oys ozs) -> disj (ix3 nx ny nz) p (at3 ixs iys izs) (ix3 nx (ny / 2 + 1) nz) q (at3 oxs oys ozs) ->
  computes R (rdft3 R t 1 p ixs iys izs q oxs oys ozs nx ny nz) (ix3 nx ny nz) p (at3 ixs iys izs) X (ix3 nx (ny / 2 + 1) nz) q (at3 oxs oys ozs)
    (fun i => DFT3 R t (-1) nx ny nz (fun x y z => X (x, (y, z))) (fst i) (fst (snd i)) (snd (snd i))).
Proof.
  intros R t p ixs iys izs q oxs oys ozs nx ny nz X _ C I1 I2 D DI. apply (eff_cpx R _ _ _ _ _ _ _ _ _ C). apply rdft3_eff1; [apply cpx_nreal, C|split; assumption|exact D|exact DI].
Qed.

Lemma C50_three_dim_real_axis2_lemma : forall (R : CRing) (t : trig R) p ixs iys izs q oxs oys ozs nx ny nz X,
  real_ptr p -> cpx_ptr q -> (forall z, z < nz / 2 + 1 -> int_ok q (off z ozs)) -> (forall x y, x < nx -> y < ny -> int_ok q (off x oxs + off y oys)) ->
  dist (ix3 nx ny (nz / 2 + 1)) q (at3 oxs oys ozs) -> disj (ix3 nx ny nz) p (at3 ixs iys izs) (ix3 nx ny (nz / 2 + 1)) q (at3 oxs oys ozs) ->
  computes R (rdft3 R t 2 p ixs iys izs q oxs oys ozs nx ny nz) (ix3 nx ny nz) p (at3 ixs iys izs) X (ix3 nx ny (nz / 2 + 1)) q (at3 oxs oys ozs)
    (fun i => DFT3 R t (-1) nx ny nz (fun x y z => X (x, (y, z))) (fst i) (fst (snd i)) (snd (snd i))).
Proof.
  intros R t p ixs iys izs q oxs oys ozs nx ny nz X _ C I1 I2 D DI. apply (eff_cpx R _ _ _ _ _ _ _ _ _ C). apply rdft3_eff2; [apply cpx_nreal, C|split; assumption|exact D|exact DI].
Qed.

Lemma C50_two_dim_complex_to_real_axis0_lemma : forall (R : CRing) (t : trig R) p irs ics q ors ocs rows cols x,
  cpx_ptr p -> real_ptr q -> (forall r, r < rows / 2 + 1 -> int_ok p (off r irs)) -> dist (ix2 rows cols) q (at2 ors ocs) ->
  computes R (crdft2 R t 0 p irs ics q ors ocs rows cols) (ix2 (rows / 2 + 1) cols) p (at2 irs ics) x (ix2 rows cols) q (at2 ors ocs)
    (fun rc => ofR R (fst (DFT R t 1 rows (herm R rows (fun r => DFT R t 1 cols (fun c => x (r, c)) (snd rc))) (fst rc)))).
Proof.
  intros R t p irs ics q ors ocs rows cols x Cp Cq IO D. apply (eff_real R _ _ _ _ _ _ _ _ _ Cq (crdft2_eff0 R t p irs ics q ors ocs rows cols x (cpx_ntmp _ Cp) (real_ntmp _ Cq) IO D)).
Qed.

Lemma C50_two_dim_complex_to_real_axis1_lemma : forall (R : CRing) (t : trig R) p irs ics q ors ocs rows cols x,
  cpx_ptr p -> real_ptr q -> (forall c, c < cols / 2 + 1 -> int_ok p (off c ics)) -> dist (ix2 rows cols) q (at2 ors ocs) ->
  computes R (crdft2 R t 1 p irs ics q ors ocs rows cols) (ix2 rows (cols / 2 + 1)) p (at2 irs ics) x (ix2 rows cols) q (at2 ors ocs)
    (fun rc => ofR R (fst (DFT R t 1 cols (herm R cols (fun c => DFT R t 1 rows (fun r => x (r, c)) (fst rc))) (snd rc)))).
Proof.
  intros R t p irs ics q ors ocs rows cols x Cp Cq IO D. apply (eff_real R _ _ _ _ _ _ _ _ _ Cq (crdft2_eff1 R t p irs ics q ors ocs rows cols x (cpx_ntmp _ Cp) (real_ntmp _ Cq) IO D)).
Qed.

Lemma C50_three_dim_complex_to_real_axis0_lemma : forall (R : CRing) (t : trig R) p ixs iys izs q oxs oys ozs nx ny nz X,
  cpx_ptr p -> real_ptr q -> (forall x, x < nx / 2 + 1 -> int_ok p (off x ixs)) -> dist (ix3 nx ny nz) q (at3 oxs oys ozs) ->
  computes R (crdft3 R t 0 p ixs iys izs q oxs oys ozs nx ny nz) (ix3 (nx / 2 + 1) ny nz) p (at3 ixs iys izs) X (ix3 nx ny nz) q (at3 oxs oys ozs)
    (fun i => ofR R (fst (DFT R t 1 nx (herm R nx (fun x => DFT2 R t 1 ny nz (fun y z => X (x, (y, z))) (fst (snd i)) (snd (snd i)))) (fst i)))).
Proof.
  intros R t p ixs iys izs q oxs oys ozs nx ny nz X Cp Cq IO D. apply (eff_real R _ _ _ _ _ _ _ _ _ Cq (crdft3_eff0 R t p ixs iys izs q oxs oys ozs nx ny nz X (cpx_ntmp _ Cp) (real_ntmp _ Cq) IO D)).
Qed.

Lemma C50_three_dim_complex_to_real_axis1_lemma : forall (R : CRing) (t : trig R) p ixs iys izs q oxs oys ozs nx ny nz X,
  cpx_ptr p -> real_ptr q -> (forall y, y < ny / 2 + 1 -> int_ok p (off y iys)) -> dist (ix3 nx ny nz) q (at3 oxs oys ozs) ->
  computes R (crdft3 R t 1 p ixs iys izs q oxs oys ozs nx ny nz) (ix3 nx (ny / 2 + 1) nz) p (at3 ixs iys izs) X (ix3 nx ny nz) q (at3 oxs oys ozs)
    (fun i => ofR R (fst (DFT R t 1 ny (herm R ny (fun y => DFT2 R t 1 nx nz (fun x z => X (x, (y, z))) (fst i) (snd (snd i)))) (fst (snd i))))).
Proof.
  intros R t p ixs iys izs q oxs oys ozs nx ny nz X Cp Cq IO D. apply (eff_real R _ _ _ _ _ _ _ _ _ Cq (crdft3_eff1 R t p ixs iys izs q oxs oys ozs nx ny nz X (cpx_ntmp _ Cp) (real_ntmp _ Cq) IO D)).
Qed.

Lemma C50_three_dim_complex_to_real_axis2_lemma : forall (R : CRing) (t : trig R) p ixs iys izs q oxs oys ozs nx ny nz X,
  cpx_ptr p -> real_ptr q -> (forall z, z < nz / 2 + 1 -> int_ok p (off z izs)) -> dist (ix3 nx ny nz) q (at3 oxs oys ozs) ->
  computes R (crdft3 R t 2 p ixs iys izs q oxs oys ozs nx ny nz) (ix3 nx ny (nz / 2 + 1)) p (at3 ixs iys izs) X (ix3 nx ny nz) q (at3 oxs oys ozs)
    (fun i => ofR R (fst (DFT R t 1 nz (herm R nz (fun z => DFT2 R t 1 nx ny (fun x y => X (x, (y, z))) (fst i) (fst (snd i)))) (snd (snd i))))).
Proof.
  intros R t p ixs iys izs q oxs oys ozs nx ny nz X Cp Cq IO D. apply (eff_real R _ _ _ _ _ _ _ _ _ Cq (crdft3_eff2 R t p ixs iys izs q oxs oys ozs nx ny nz X (cpx_ntmp _ Cp) (real_ntmp _ Cq) IO D)).
Qed.

Lemma C51_one_dim_lemma : forall (R : CRing) (t : trig R) e p sp q sq r sr l x m,
  (e = 1 \/ e = -1)%Z -> exact R t l -> cpx_ptr p -> cpx_ptr q -> cpx_ptr r ->
  dist (ix1 l) q (at1 sq) -> disj (ix1 l) p (at1 sp) (ix1 l) q (at1 sq) ->
  dist (ix1 l) r (at1 sr) -> disj (ix1 l) q (at1 sq) (ix1 l) r (at1 sr) ->
  holds R m (ix1 l) p (at1 sp) x -> room R m (ix1 l) q (at1 sq) -> room R m (ix1 l) r (at1 sr) ->
  exists m1 m2, dft1_out_of_place R t (- e) p sp q sq l m = Some m1 /\ dft1_out_of_place R t e q sq r sr l m1 = Some m2 /\
    holds R m2 (ix1 l) r (at1 sr) (fun k => nat_r R l * x k)%cr.
Proof.
  intros R t e p sp q sq r sr l x m He ex Cp Cq Cr' D1 I1 D2 I2 H Rq Rr.
  destruct (computes_seq R _ _ _ _ _ _ _ _ _ _ _ _ _ _ m (C50_one_dim_lemma R t (- e)%Z p sp q sq l x Cp Cq D1 I1) (C50_one_dim_lemma R t e q sq r sr l _ Cq Cr' D2 I2) H Rq Rr) as (m1 & m2 & E1 & E2 & _ & G).
  exists m1, m2. split; [exact E1|]. split; [exact E2|]. intros k Hk. rewrite (G k Hk), DFT_inv by assumption. reflexivity.
Qed.

Lemma C51_one_dim_in_place_lemma : forall (R : CRing) (t : trig R) e q s l x m,
  (e = 1 \/ e = -1)%Z -> exact R t l -> cpx_ptr q -> dist (ix1 l) q (at1 s) ->
  holds R m (ix1 l) q (at1 s) x -> room R m (ix1 l) q (at1 s) ->
  exists m1 m2, dft1_in_place R t (- e) q s l m = Some m1 /\ dft1_in_place R t e q s l m1 = Some m2 /\
    holds R m2 (ix1 l) q (at1 s) (fun k => nat_r R l * x k)%cr.
Proof.
  intros R t e q s l x m He ex Cq D H Rq.
  destruct (computes_seq R _ _ _ _ _ _ _ _ _ _ _ _ _ _ m (C50_one_dim_in_place_lemma R t (- e)%Z q s l x Cq D) (C50_one_dim_in_place_lemma R t e q s l _ Cq D) H Rq Rq) as (m1 & m2 & E1 & E2 & _ & G).
  exists m1, m2. split; [exact E1|]. split; [exact E2|]. intros k Hk. rewrite (G k Hk), DFT_inv by assumption. reflexivity.
Qed.

Lemma C51_one_dim_real_lemma : forall (R : CRing) (t : trig R) p sp q sq r sr l x m,
  exact R t l -> real_ptr p -> cpx_ptr q -> real_ptr r ->
  dist (ix1 (l / 2 + 1)) q (at1 sq) -> disj (ix1 l) p (at1 sp) (ix1 (l / 2 + 1)) q (at1 sq) ->
  dist (ix1 l) r (at1 sr) -> disj (ix1 (l / 2 + 1)) q (at1 sq) (ix1 l) r (at1 sr) ->
  holds R m (ix1 l) p (at1 sp) (fun k => ofR R (x k)) -> room R m (ix1 (l / 2 + 1)) q (at1 sq) -> room R m (ix1 l) r (at1 sr) ->
  exists m1 m2, rdft1 R t p sp q sq l m = Some m1 /\ crdft1 R t q sq r sr l m1 = Some m2 /\
    holds R m2 (ix1 l) r (at1 sr) (fun k => nat_r R l * ofR R (x k))%cr.
Proof.
  intros R t p sp q sq r sr l x m ex Cp Cq Cr' D1 I1 D2 I2 H Rq Rr.
  destruct (computes_seq R _ _ _ _ _ _ _ _ _ _ _ _ _ _ m (C50_real_to_complex_lemma R t p sp q sq l _ Cp Cq D1 I1) (C50_complex_to_real_lemma R t q sq r sr l _ Cq Cr' D2 I2) H Rq Rr) as (m1 & m2 & E1 & E2 & _ & G).
  exists m1, m2. split; [exact E1|]. split; [exact E2|]. intros k Hk. rewrite (G k Hk). f_equal.
  rewrite (crdft_inv R t l ex 1%cr x _ k Hk) by (intros w _; symmetry; apply one_l).
  rewrite one_l. destruct (nr_real R l) as [v ->]. rewrite <- ofR_mul. reflexivity.
Qed.

Lemma C51_two_dim_lemma : forall (R : CRing) (t : trig R) e p irs ics q ors ocs r rrs rcs rows cols x m,
  (e = 1 \/ e = -1)%Z -> exact R t rows -> exact R t cols -> cpx_ptr p -> cpx_ptr q -> cpx_ptr r ->
  dist (ix2 rows cols) q (at2 ors ocs) -> disj (ix2 rows cols) p (at2 irs ics) (ix2 rows cols) q (at2 ors ocs) ->
  dist (ix2 rows cols) r (at2 rrs rcs) -> disj (ix2 rows cols) q (at2 ors ocs) (ix2 rows cols) r (at2 rrs rcs) ->
  holds R m (ix2 rows cols) p (at2 irs ics) x -> room R m (ix2 rows cols) q (at2 ors ocs) -> room R m (ix2 rows cols) r (at2 rrs rcs) ->
  exists m1 m2, dft2_out_of_place R t (- e) p irs ics q ors ocs rows cols m = Some m1 /\ dft2_out_of_place R t e q ors ocs r rrs rcs rows cols m1 = Some m2 /\
    holds R m2 (ix2 rows cols) r (at2 rrs rcs) (fun i => nat_r R rows * nat_r R cols * x i)%cr.
Proof.
  intros R t e p irs ics q ors ocs r rrs rcs rows cols x m He er ec Cp Cq Cr' D1 I1 D2 I2 H Rq Rr.
  destruct (computes_seq R _ _ _ _ _ _ _ _ _ _ _ _ _ _ m (C50_two_dim_lemma R t (- e)%Z p irs ics q ors ocs rows cols x Cp Cq D1 I1) (C50_two_dim_lemma R t e q ors ocs r rrs rcs rows cols _ Cq Cr' D2 I2) H Rq Rr) as (m1 & m2 & E1 & E2 & _ & G).
  exists m1, m2. split; [exact E1|]. split; [exact E2|]. intros [u v] [Hu Hv]. rewrite (G (u, v) (conj Hu Hv)). f_equal. cbn [fst snd] in *.
  exact (DFT2_inv R t rows cols er ec e (fun r c => x (r, c)) u v He Hu Hv).
Qed.

Lemma C51_two_dim_real_axis0_lemma : forall (R : CRing) (t : trig R) p irs ics q ors ocs r rrs rcs rows cols x m,
  exact R t rows -> exact R t cols -> real_ptr p -> cpx_ptr q -> real_ptr r -> (forall r0, r0 < rows / 2 + 1 -> int_ok q (off r0 ors)) ->
  dist (ix2 (rows / 2 + 1) cols) q (at2 ors ocs) -> disj (ix2 rows cols) p (at2 irs ics) (ix2 (rows / 2 + 1) cols) q (at2 ors ocs) -> dist (ix2 rows cols) r (at2 rrs rcs) ->
  holds R m (ix2 rows cols) p (at2 irs ics) (fun i => ofR R (x i)) -> room R m (ix2 (rows / 2 + 1) cols) q (at2 ors ocs) -> room R m (ix2 rows cols) r (at2 rrs rcs) ->
  exists m1 m2, rdft2 R t 0 p irs ics q ors ocs rows cols m = Some m1 /\ crdft2 R t 0 q ors ocs r rrs rcs rows cols m1 = Some m2 /\
    holds R m2 (ix2 rows cols) r (at2 rrs rcs) (fun i => nat_r R rows * nat_r R cols * ofR R (x i))%cr.
Proof.
  intros R t p irs ics q ors ocs r rrs rcs rows cols x m er ec Cp Cq Cr' IO D1 I1 D2 H Rq Rr.
  destruct (computes_seq R _ _ _ _ _ _ _ _ _ _ _ _ _ _ m (C50_two_dim_real_axis0_lemma R t p irs ics q ors ocs rows cols _ Cp Cq D1 I1)
    (eff_real R _ _ _ _ _ _ _ _ _ Cr' (crdft2_eff0 R t q ors ocs r rrs rcs rows cols _ (cpx_ntmp _ Cq) (real_ntmp _ Cr') IO D2)) H Rq Rr) as (m1 & m2 & E1 & E2 & _ & G).
  exists m1, m2. split; [exact E1|]. split; [exact E2|]. intros [u v] [Hu Hv]. rewrite (G (u, v) (conj Hu Hv)). f_equal. cbn [fst snd] in *.
  destruct (nr_real R rows) as [kr Kr]. destruct (nr_real R cols) as [kc Kc].
  rewrite (crdft_inv R t rows er kc (fun r => x (r, v)) _ u Hu).
  2:{ intros w _. rewrite <- Kc, <- (DFT_inv R t cols ec 1 (fun c => DFT R t (-1) rows (fun r => ofR R (x (r, c))) w) v (or_introl eq_refl) Hv). apply DFT_ext. intros c _. symmetry. exact (DFT2_cr R t (-1) rows cols (fun r c => ofR R (x (r, c))) w c). }
  rewrite Kr, Kc, <- !ofR_mul. cbn [fst]. f_equal. apply rasc.
Qed.

Lemma C51_two_dim_real_axis1_lemma : forall (R : CRing) (t : trig R) p irs ics q ors ocs r rrs rcs rows cols x m,
  exact R t rows -> exact R t cols -> real_ptr p -> cpx_ptr q -> real_ptr r -> (forall c0, c0 < cols / 2 + 1 -> int_ok q (off c0 ocs)) ->
  dist (ix2 rows (cols / 2 + 1)) q (at2 ors ocs) -> disj (ix2 rows cols) p (at2 irs ics) (ix2 rows (cols / 2 + 1)) q (at2 ors ocs) -> dist (ix2 rows cols) r (at2 rrs rcs) ->
  holds R m (ix2 rows cols) p (at2 irs ics) (fun i => ofR R (x i)) -> room R m (ix2 rows (cols / 2 + 1)) q (at2 ors ocs) -> room R m (ix2 rows cols) r (at2 rrs rcs) ->
  exists m1 m2, rdft2 R t 1 p irs ics q ors ocs rows cols m = Some m1 /\ crdft2 R t 1 q ors ocs r rrs rcs rows cols m1 = Some m2 /\
    holds R m2 (ix2 rows cols) r (at2 rrs rcs) (fun i => nat_r R rows * nat_r R cols * ofR R (x i))%cr.
Proof.
  intros R t p irs ics q ors ocs r rrs rcs rows cols x m er ec Cp Cq Cr' IO D1 I1 D2 H Rq Rr.
  destruct (computes_seq R _ _ _ _ _ _ _ _ _ _ _ _ _ _ m (C50_two_dim_real_axis1_lemma R t p irs ics q ors ocs rows cols _ Cp Cq D1 I1)
    (eff_real R _ _ _ _ _ _ _ _ _ Cr' (crdft2_eff1 R t q ors ocs r rrs rcs rows cols _ (cpx_ntmp _ Cq) (real_ntmp _ Cr') IO D2)) H Rq Rr) as (m1 & m2 & E1 & E2 & _ & G).
  exists m1, m2. split; [exact E1|]. split; [exact E2|]. intros [u v] [Hu Hv]. rewrite (G (u, v) (conj Hu Hv)). f_equal. cbn [fst snd] in *.
  destruct (nr_real R rows) as [kr Kr]. destruct (nr_real R cols) as [kc Kc].
  rewrite (crdft_inv R t cols ec kr (fun c => x (u, c)) _ v Hv).
  2:{ intros w _. rewrite <- Kr, <- (DFT_inv R t rows er 1 (fun r => DFT R t (-1) cols (fun c => ofR R (x (r, c))) w) u (or_introl eq_refl) Hu). apply DFT_ext. intros c _. symmetry. exact (DFT2_rc R t (-1) rows cols (fun r c => ofR R (x (r, c))) c w). }
  rewrite Kr, Kc, <- !ofR_mul. cbn [fst]. f_equal. apply rasc2.
Qed.

Lemma C51_three_dim_lemma : forall (R : CRing) (t : trig R) e p ixs iys izs q oxs oys ozs r rxs rys rzs nx ny nz X m,
  (e = 1 \/ e = -1)%Z -> exact R t nx -> exact R t ny -> exact R t nz -> cpx_ptr p -> cpx_ptr q -> cpx_ptr r ->
  (forall x, x < nx -> int_ok p (off x ixs) /\ int_ok q (off x oxs) /\ int_ok r (off x rxs)) ->
  (forall y z, y < ny -> z < nz -> int_ok q (off y oys + off z ozs) /\ int_ok r (off y rys + off z rzs)) ->
  dist (ix3 nx ny nz) q (at3 oxs oys ozs) -> disj (ix3 nx ny nz) p (at3 ixs iys izs) (ix3 nx ny nz) q (at3 oxs oys ozs) ->
  dist (ix3 nx ny nz) r (at3 rxs rys rzs) -> disj (ix3 nx ny nz) q (at3 oxs oys ozs) (ix3 nx ny nz) r (at3 rxs rys rzs) ->
  holds R m (ix3 nx ny nz) p (at3 ixs iys izs) X -> room R m (ix3 nx ny nz) q (at3 oxs oys ozs) -> room R m (ix3 nx ny nz) r (at3 rxs rys rzs) ->
  exists m1 m2, dft3_out_of_place R t (- e) p ixs iys izs q oxs oys ozs nx ny nz m = Some m1 /\ dft3_out_of_place R t e q oxs oys ozs r rxs rys rzs nx ny nz m1 = Some m2 /\
    holds R m2 (ix3 nx ny nz) r (at3 rxs rys rzs) (fun i => nat_r R nx * nat_r R ny * nat_r R nz * X i)%cr.
Proof.
  intros R t e p ixs iys izs q oxs oys ozs r rxs rys rzs nx ny nz X m He ex ey ez Cp Cq Cr' J1 J2 D1 I1 D2 I2 H Rq Rr.
  destruct (computes_seq R _ _ _ _ _ _ _ _ _ _ _ _ _ _ m
    (C50_three_dim_lemma R t (- e)%Z p ixs iys izs q oxs oys ozs nx ny nz X Cp Cq (fun x h => proj1 (J1 x h)) (fun x h => proj1 (proj2 (J1 x h))) (fun y z h h' => proj1 (J2 y z h h')) D1 I1)
    (C50_three_dim_lemma R t e q oxs oys ozs r rxs rys rzs nx ny nz _ Cq Cr' (fun x h => proj1 (proj2 (J1 x h))) (fun x h => proj2 (proj2 (J1 x h))) (fun y z h h' => proj2 (J2 y z h h')) D2 I2) H Rq Rr) as (m1 & m2 & E1 & E2 & _ & G).
  exists m1, m2. split; [exact E1|]. split; [exact E2|]. intros [u [v w]] (Hu & Hv & Hw). rewrite (G (u, (v, w)) (conj Hu (conj Hv Hw))). f_equal. cbn [fst snd] in *.
  exact (DFT3_inv R t nx ny nz ex ey ez e (fun x y z => X (x, (y, z))) u v w He Hu Hv Hw).
Qed.

Lemma C51_three_dim_real_axis0_lemma : forall (R : CRing) (t : trig R) p ixs iys izs q oxs oys ozs r rxs rys rzs nx ny nz X m,
  exact R t nx -> exact R t ny -> exact R t nz -> real_ptr p -> cpx_ptr q -> real_ptr r ->
  (forall x, x < nx / 2 + 1 -> int_ok q (off x oxs)) -> (forall y z, y < ny -> z < nz -> int_ok q (off y oys + off z ozs)) ->
  dist (ix3 (nx / 2 + 1) ny nz) q (at3 oxs oys ozs) -> disj (ix3 nx ny nz) p (at3 ixs iys izs) (ix3 (nx / 2 + 1) ny nz) q (at3 oxs oys ozs) -> dist (ix3 nx ny nz) r (at3 rxs rys rzs) ->
  holds R m (ix3 nx ny nz) p (at3 ixs iys izs) (fun i => ofR R (X i)) -> room R m (ix3 (nx / 2 + 1) ny nz) q (at3 oxs oys ozs) -> room R m (ix3 nx ny nz) r (at3 rxs rys rzs) ->
  exists m1 m2, rdft3 R t 0 p ixs iys izs q oxs oys ozs nx ny nz m = Some m1 /\ crdft3 R t 0 q oxs oys ozs r rxs rys rzs nx ny nz m1 = Some m2 /\
    holds R m2 (ix3 nx ny nz) r (at3 rxs rys rzs) (fun i => nat_r R nx * nat_r R ny * nat_r R nz * ofR R (X i))%cr.
Proof.
  intros R t p ixs iys izs q oxs oys ozs r rxs rys rzs nx ny nz X m ex ey ez Cp Cq Cr' J1 J2 D1 I1 D2 H Rq Rr.
  destruct (computes_seq R _ _ _ _ _ _ _ _ _ _ _ _ _ _ m (C50_three_dim_real_axis0_lemma R t p ixs iys izs q oxs oys ozs nx ny nz _ Cp Cq J1 J2 D1 I1)
    (eff_real R _ _ _ _ _ _ _ _ _ Cr' (crdft3_eff0 R t q oxs oys ozs r rxs rys rzs nx ny nz _ (cpx_ntmp _ Cq) (real_ntmp _ Cr') J1 D2)) H Rq Rr) as (m1 & m2 & E1 & E2 & _ & G).
  exists m1, m2. split; [exact E1|]. split; [exact E2|]. intros [u [v w]] (Hu & Hv & Hw). rewrite (G (u, (v, w)) (conj Hu (conj Hv Hw))). f_equal. cbn [fst snd] in *.
  destruct (nr_real R nx) as [kx Kx]. destruct (nr_real R ny) as [ky Ky]. destruct (nr_real R nz) as [kz Kz].
  rewrite (crdft_inv R t nx ex (ky * kz)%cr (fun x => X (x, (v, w))) _ u Hu).
  2:{ intros i _. rewrite ofR_mul, <- Ky, <- Kz, <- (DFT2_inv R t ny nz ey ez 1 (fun y z => DFT R t (-1) nx (fun x => ofR R (X (x, (y, z)))) i) v w (or_introl eq_refl) Hv Hw).
      apply DFT2_ext. intros y z _ _. symmetry. exact (DFT3_21 R t (-1) nx ny nz (fun x y z => ofR R (X (x, (y, z)))) i y z). }
  rewrite Kx, Ky, Kz, <- !ofR_mul. cbn [fst]. f_equal. apply rasc3a.
Qed.

Lemma C51_three_dim_real_axis1_lemma : forall (R : CRing) (t : trig R) p ixs iys izs q oxs oys ozs r rxs rys rzs nx ny nz X m,
  exact R t nx -> exact R t ny -> exact R t nz -> real_ptr p -> cpx_ptr q -> real_ptr r ->
  (forall y, y < ny / 2 + 1 -> int_ok q (off y oys)) -> (forall x z, x < nx -> z < nz -> int_ok q (off x oxs + off z ozs)) ->
  dist (ix3 nx (ny / 2 + 1) nz) q (at3 oxs oys ozs) -> disj (ix3 nx ny nz) p (at3 ixs iys izs) (ix3 nx (ny / 2 + 1) nz) q (at3 oxs oys ozs) -> dist (ix3 nx ny nz) r (at3 rxs rys rzs) ->
  holds R m (ix3 nx ny nz) p (at3 ixs iys izs) (fun i => ofR R (X i)) -> room R m (ix3 nx (ny / 2 + 1) nz) q (at3 oxs oys ozs) -> room R m (ix3 nx ny nz) r (at3 rxs rys rzs) ->
  exists m1 m2, rdft3 R t 1 p ixs iys izs q oxs oys ozs nx ny nz m = Some m1 /\ crdft3 R t 1 q oxs oys ozs r rxs rys rzs nx ny nz m1 = Some m2 /\
    holds R m2 (ix3 nx ny nz) r (at3 rxs rys rzs) (fun i => nat_r R nx * nat_r R ny * nat_r R nz * ofR R (X i))%cr.
Proof.
  intros R t p ixs iys izs q oxs oys ozs r rxs rys rzs nx ny nz X m ex ey ez Cp Cq Cr' J1 J2 D1 I1 D2 H Rq Rr.
  destruct (computes_seq R _ _ _ _ _ _ _ _ _ _ _ _ _ _ m (C50_three_dim_real_axis1_lemma R t p ixs iys izs q oxs oys ozs nx ny nz _ Cp Cq J1 J2 D1 I1)
    (eff_real R _ _ _ _ _ _ _ _ _ Cr' (crdft3_eff1 R t q oxs oys ozs r rxs rys rzs nx ny nz _ (cpx_ntmp _ Cq) (real_ntmp _ Cr') J1 D2)) H Rq Rr) as (m1 & m2 & E1 & E2 & _ & G).
  exists m1, m2. split; [exact E1|]. split; [exact E2|]. intros [u [v w]] (Hu & Hv & Hw). rewrite (G (u, (v, w)) (conj Hu (conj Hv Hw))). f_equal. cbn [fst snd] in *.
  destruct (nr_real R nx) as [kx Kx]. destruct (nr_real R ny) as [ky Ky]. destruct (nr_real R nz) as [kz Kz].
  rewrite (crdft_inv R t ny ey (kx * kz)%cr (fun y => X (u, (y, w))) _ v Hv).
  2:{ intros i _. rewrite ofR_mul, <- Kx, <- Kz, <- (DFT2_inv R t nx nz ex ez 1 (fun x z => DFT R t (-1) ny (fun y => ofR R (X (x, (y, z)))) i) u w (or_introl eq_refl) Hu Hw).
      apply DFT2_ext. intros x z _ _. symmetry. etransitivity; [exact (DFT3_21 R t (-1) ny nx nz (fun y x z => ofR R (X (x, (y, z)))) i x z)|]. symmetry. apply (DFT3_s12 R t). }
  rewrite Kx, Ky, Kz, <- !ofR_mul. cbn [fst]. f_equal. apply rasc3b.
Qed.

Lemma C51_three_dim_real_axis2_lemma : forall (R : CRing) (t : trig R) p ixs iys izs q oxs oys ozs r rxs rys rzs nx ny nz X m,
  exact R t nx -> exact R t ny -> exact R t nz -> real_ptr p -> cpx_ptr q -> real_ptr r ->
  (forall z, z < nz / 2 + 1 -> int_ok q (off z ozs)) -> (forall x y, x < nx -> y < ny -> int_ok q (off x oxs + off y oys)) ->
  dist (ix3 nx ny (nz / 2 + 1)) q (at3 oxs oys ozs) -> disj (ix3 nx ny nz) p (at3 ixs iys izs) (ix3 nx ny (nz / 2 + 1)) q (at3 oxs oys ozs) -> dist (ix3 nx ny nz) r (at3 rxs rys rzs) ->
  holds R m (ix3 nx ny nz) p (at3 ixs iys izs) (fun i => ofR R (X i)) -> room R m (ix3 nx ny (nz / 2 + 1)) q (at3 oxs oys ozs) -> room R m (ix3 nx ny nz) r (at3 rxs rys rzs) ->
  exists m1 m2, rdft3 R t 2 p ixs iys izs q oxs oys ozs nx ny nz m = Some m1 /\ crdft3 R t 2 q oxs oys ozs r rxs rys rzs nx ny nz m1 = Some m2 /\
    holds R m2 (ix3 nx ny nz) r (at3 rxs rys rzs) (fun i => nat_r R nx * nat_r R ny * nat_r R nz * ofR R (X i))%cr.
Proof.
  intros R t p ixs iys izs q oxs oys ozs r rxs rys rzs nx ny nz X m ex ey ez Cp Cq Cr' J1 J2 D1 I1 D2 H Rq Rr.
  destruct (computes_seq R _ _ _ _ _ _ _ _ _ _ _ _ _ _ m (C50_three_dim_real_axis2_lemma R t p ixs iys izs q oxs oys ozs nx ny nz _ Cp Cq J1 J2 D1 I1)
    (eff_real R _ _ _ _ _ _ _ _ _ Cr' (crdft3_eff2 R t q oxs oys ozs r rxs rys rzs nx ny nz _ (cpx_ntmp _ Cq) (real_ntmp _ Cr') J1 D2)) H Rq Rr) as (m1 & m2 & E1 & E2 & _ & G).
  exists m1, m2. split; [exact E1|]. split; [exact E2|]. intros [u [v w]] (Hu & Hv & Hw). rewrite (G (u, (v, w)) (conj Hu (conj Hv Hw))). f_equal. cbn [fst snd] in *.
  destruct (nr_real R nx) as [kx Kx]. destruct (nr_real R ny) as [ky Ky]. destruct (nr_real R nz) as [kz Kz].
  rewrite (crdft_inv R t nz ez (kx * ky)%cr (fun z => X (u, (v, z))) _ w Hw).
  2:{ intros i _. rewrite ofR_mul, <- Kx, <- Ky, <- (DFT2_inv R t nx ny ex ey 1 (fun x y => DFT R t (-1) nz (fun z => ofR R (X (x, (y, z)))) i) u v (or_introl eq_refl) Hu Hv).
      apply DFT2_ext. intros x y _ _. symmetry. etransitivity; [exact (DFT3_21 R t (-1) nz nx ny (fun z x y => ofR R (X (x, (y, z)))) i x y)|]. symmetry. etransitivity; [apply (DFT3_s23 R t)|]. apply (DFT3_s12 R t). }
  rewrite Kx, Ky, Kz, <- !ofR_mul. cbn [fst]. f_equal. apply rasc3c.
Qed.

Lemma C52_rows_lemma : forall (R : CRing) (t : trig R) e p irs ics q ors ocs rows cols x,
  cpx_ptr p -> cpx_ptr q -> dist (ix2 rows cols) q (at2 ors ocs) -> disj (ix2 rows cols) p (at2 irs ics) (ix2 rows cols) q (at2 ors ocs) ->
  computes R (dftm_out_of_place R t 0 e p irs ics q ors ocs rows cols) (ix2 rows cols) p (at2 irs ics) x (ix2 rows cols) q (at2 ors ocs)
    (fun rc => DFT R t e cols (fun c => x (fst rc, c)) (snd rc)).
Proof.
  intros R t e p irs ics q ors ocs rows cols x _ C D DI. apply (eff_cpx R _ _ _ _ _ _ _ _ _ C). unfold dftm_out_of_place. cbn [Nat.eqb].
  apply (rows_oop R (fun p' q' m => dft1_out_of_place R t e p' ics q' ocs cols m) p irs ics q ors ocs rows cols cols (DFT R t e cols) x); [|exact D|exact DI].
  intros p' q' x' H1 H2. apply dft1_oop_eff; assumption.
Qed.

Lemma C52_rows_in_place_lemma : forall (R : CRing) (t : trig R) e q rs cstr rows cols x,
  cpx_ptr q -> dist (ix2 rows cols) q (at2 rs cstr) ->
  computes R (dftm_in_place R t 0 e q rs cstr rows cols) (ix2 rows cols) q (at2 rs cstr) x (ix2 rows cols) q (at2 rs cstr)
    (fun rc => DFT R t e cols (fun c => x (fst rc, c)) (snd rc)).
Proof.
  intros R t e q rs cstr rows cols x C D. apply (eff_cpx R _ _ _ _ _ _ _ _ _ C). unfold dftm_in_place. cbn [Nat.eqb].
  exact (lines_ip R t e q (fun r => off r rs) cstr rows cols x D).
Qed.

Lemma C52_rows_real_to_complex_lemma : forall (R : CRing) (t : trig R) p irs ics q ors ocs rows cols x,
  real_ptr p -> cpx_ptr q -> (forall r, r < rows -> int_ok q (off r ors)) -> dist (ix2 rows (cols / 2 + 1)) q (at2 ors ocs) -> disj (ix2 rows cols) p (at2 irs ics) (ix2 rows (cols / 2 + 1)) q (at2 ors ocs) ->
  computes R (rdftm R t 0 p irs ics q ors ocs rows cols) (ix2 rows cols) p (at2 irs ics) x (ix2 rows (cols / 2 + 1)) q (at2 ors ocs)
    (fun rc => DFT R t (-1) cols (fun c => x (fst rc, c)) (snd rc)).
Proof.
  intros R t p irs ics q ors ocs rows cols x _ C IO D DI. apply (eff_cpx R _ _ _ _ _ _ _ _ _ C).
  refine (eff_ext R (loop (fun i m => rdft1 R t (padd p (off i irs)) ics (padd q (off i ors)) ocs cols m) 0 rows) _ _ _ _ _ _ _ _ _ _ _).
  { intros m. unfold rdftm. cbn [Nat.eqb]. apply loop_ext. intros i m' Hi. rewrite poff_padd by (apply IO; lia). reflexivity. }
  apply (rows_oop R (fun p' q' m => rdft1 R t p' ics q' ocs cols m) p irs ics q ors ocs rows cols (cols / 2 + 1) (DFT R t (-1) cols) x); [|exact D|exact DI].
  intros p' q' x' H1 H2. apply rdft1_eff; assumption.
Qed.

Lemma C52_rows_complex_to_real_lemma : forall (R : CRing) (t : trig R) p irs ics q ors ocs rows cols x,
  cpx_ptr p -> real_ptr q -> dist (ix2 rows cols) q (at2 ors ocs) -> disj (ix2 rows (cols / 2 + 1)) p (at2 irs ics) (ix2 rows cols) q (at2 ors ocs) ->
  computes R (crdftm R t 0 p irs ics q ors ocs rows cols) (ix2 rows (cols / 2 + 1)) p (at2 irs ics) x (ix2 rows cols) q (at2 ors ocs)
    (fun rc => ofR R (fst (DFT R t 1 cols (herm R cols (fun c => x (fst rc, c))) (snd rc)))).
Proof.
  intros R t p irs ics q ors ocs rows cols x _ C D DI. apply (eff_real R _ _ _ _ _ _ _ _ _ C). unfold crdftm. cbn [Nat.eqb].
  apply (rows_oop R (fun p' q' m => crdft1 R t p' ics q' ocs cols m) p irs ics q ors ocs rows (cols / 2 + 1) cols (fun x => DFT R t 1 cols (herm R cols x)) x); [|exact D|exact DI].
  intros p' q' x' H1 H2. apply crdft1_eff; assumption.
Qed.

Lemma C52_columns_lemma : forall (R : CRing) (t : trig R) e p irs ics q ors ocs rows cols x,
  cpx_ptr p -> cpx_ptr q -> dist (ix2 rows cols) q (at2 ors ocs) -> disj (ix2 rows cols) p (at2 irs ics) (ix2 rows cols) q (at2 ors ocs) ->
  computes R (dftm_out_of_place R t 1 e p irs ics q ors ocs rows cols) (ix2 rows cols) p (at2 irs ics) x (ix2 rows cols) q (at2 ors ocs)
    (fun rc => DFT R t e rows (fun r => x (r, snd rc)) (fst rc)).
Proof.
  intros R t e p irs ics q ors ocs rows cols x _ C D DI. apply (eff_cpx R _ _ _ _ _ _ _ _ _ C). unfold dftm_out_of_place. cbn [Nat.eqb].
  apply (cols_oop R (fun p' q' m => dft1_out_of_place R t e p' irs q' ors rows m) p irs ics q ors ocs rows rows cols (DFT R t e rows) x); [|exact D|exact DI].
  intros p' q' x' H1 H2. apply dft1_oop_eff; assumption.
Qed.

Lemma C52_columns_in_place_lemma : forall (R : CRing) (t : trig R) e q rs cstr rows cols x,
  cpx_ptr q -> dist (ix2 rows cols) q (at2 rs cstr) ->
  computes R (dftm_in_place R t 1 e q rs cstr rows cols) (ix2 rows cols) q (at2 rs cstr) x (ix2 rows cols) q (at2 rs cstr)
    (fun rc => DFT R t e rows (fun r => x (r, snd rc)) (fst rc)).
Proof.
  intros R t e q rs cstr rows cols x C D. apply (eff_cpx R _ _ _ _ _ _ _ _ _ C). unfold dftm_in_place. cbn [Nat.eqb].
  exact (cols_ip R t e q rs cstr rows cols x D).
Qed.

Lemma C52_columns_real_to_complex_lemma : forall (R : CRing) (t : trig R) p irs ics q ors ocs rows cols x,
  real_ptr p -> cpx_ptr q -> (forall c, c < cols -> int_ok q (off c ocs)) -> dist (ix2 (rows / 2 + 1) cols) q (at2 ors ocs) -> disj (ix2 rows cols) p (at2 irs ics) (ix2 (rows / 2 + 1) cols) q (at2 ors ocs) ->
  computes R (rdftm R t 1 p irs ics q ors ocs rows cols) (ix2 rows cols) p (at2 irs ics) x (ix2 (rows / 2 + 1) cols) q (at2 ors ocs)
    (fun rc => DFT R t (-1) rows (fun r => x (r, snd rc)) (fst rc)).
Proof.
  intros R t p irs ics q ors ocs rows cols x _ C IO D DI. apply (eff_cpx R _ _ _ _ _ _ _ _ _ C).
  refine (eff_ext R (loop (fun i m => rdft1 R t (padd p (off i ics)) irs (padd q (off i ocs)) ors rows m) 0 cols) _ _ _ _ _ _ _ _ _ _ _).
  { intros m. unfold rdftm. cbn [Nat.eqb]. apply loop_ext. intros i m' Hi. rewrite poff_padd by (apply IO; lia). reflexivity. }
  apply (cols_oop R (fun p' q' m => rdft1 R t p' irs q' ors rows m) p irs ics q ors ocs rows (rows / 2 + 1) cols (DFT R t (-1) rows) x); [|exact D|exact DI].
  intros p' q' x' H1 H2. apply rdft1_eff; assumption.
Qed.

Lemma C52_columns_complex_to_real_lemma : forall (R : CRing) (t : trig R) p irs ics q ors ocs rows cols x,
  cpx_ptr p -> real_ptr q -> dist (ix2 rows cols) q (at2 ors ocs) -> disj (ix2 (rows / 2 + 1) cols) p (at2 irs ics) (ix2 rows cols) q (at2 ors ocs) ->
  computes R (crdftm R t 1 p irs ics q ors ocs rows cols) (ix2 (rows / 2 + 1) cols) p (at2 irs ics) x (ix2 rows cols) q (at2 ors ocs)
    (fun rc => ofR R (fst (DFT R t 1 rows (herm R rows (fun r => x (r, snd rc))) (fst rc)))).
Proof.
  intros R t p irs ics q ors ocs rows cols x _ C D DI. apply (eff_real R _ _ _ _ _ _ _ _ _ C). unfold crdftm. cbn [Nat.eqb].
  apply (cols_oop R (fun p' q' m => crdft1 R t p' irs q' ors rows m) p irs ics q ors ocs (rows / 2 + 1) rows cols (fun x => DFT R t 1 rows (herm R rows x)) x); [|exact D|exact DI].
  intros p' q' x' H1 H2. apply crdft1_eff; assumption.
Qed.

Lemma C52_int_offset_refuted_lemma : exists p irs ics q ors ocs rows cols x,
  real_ptr p /\ cpx_ptr q /\ dist (ix2 rows (cols / 2 + 1)) q (at2 ors ocs) /\ disj (ix2 rows cols) p (at2 irs ics) (ix2 rows (cols / 2 + 1)) q (at2 ors ocs) /\
  ~ computes Zring (rdftm Zring ztrig 0 p irs ics q ors ocs rows cols) (ix2 rows cols) p (at2 irs ics) x (ix2 rows (cols / 2 + 1)) q (at2 ors ocs)
    (fun rc => DFT Zring ztrig (-1) cols (fun c => x (fst rc, c)) (snd rc)).
Proof.
  exists (Real (-100)), 1%Z, 1%Z, (Split 0 1), 2147483648%Z, 2%Z, 2, 1, (fun _ => (5, 0)%Z).
  split; [lays|]. split; [lays|]. split; [lays|]. split; [lays|].
  intros H. destruct (H (St Zring (fun _ => Some 5%Z) (fun _ => None) (fun _ => None))) as (m' & E & G & _).
  - intros [a b] [Ha Hb]. cbn [fst snd] in *. reflexivity.
  - intros [a b] [Ha Hb]. cbn [fst snd] in *. split; [|split; discriminate]. cbn [cells]. constructor; [|constructor; [intros []|constructor]].
    intros [X|[]]. apply rcell_inj in X. lia.
  - assert (G' := G (1, 0)). assert (W : ix2 2 (1 / 2 + 1) (1, 0)) by (split; cbn; lia). specialize (G' W). clear G H W.
    revert G'. vm_compute in E. injection E as <-. vm_compute. discriminate.
Qed.

Lemma C53_scaled_transform_lemma : forall (R : CRing) (t : trig R) e n ne1 sc i o x,
  (ne1 = false -> sc = 1%cr) -> vn i = n -> vn o = n ->
  cpx_ptr (vp i) -> cpx_ptr (vp o) -> dist (ix1 n) (vp o) (at1 (vs o)) -> disj (ix1 n) (vp i) (at1 (vs i)) (ix1 n) (vp o) (at1 (vs o)) ->
  computes R (fft1_by_reference R t C2C e n ne1 sc i o) (ix1 n) (vp i) (at1 (vs i)) x (ix1 n) (vp o) (at1 (vs o)) (fun w => DFT R t e n x w * ofR R sc)%cr.
Proof.
  intros R t e n ne1 sc [ip is il] [op os ol] x H1 Ei Eo Ci Co D DI. cbn [vp vs vn] in *. subst il ol.
  apply (front_ok R (dft1_out_of_place R t e ip is op os n) _ ne1 sc); [exact H1|exact D|left; apply cpx_nreal, Co| |].
  - apply C50_one_dim_lemma; assumption.
  - intros m. unfold fft1_by_reference. cbn [vp vs vn in_size out_size]. rewrite Nat.eqb_refl. reflexivity.
Qed.

Lemma C53_scaled_real_to_complex_lemma : forall (R : CRing) (t : trig R) e n ne1 sc i o x,
  (ne1 = false -> sc = 1%cr) -> vn i = n -> vn o = n / 2 + 1 ->
  real_ptr (vp i) -> cpx_ptr (vp o) -> dist (ix1 (n / 2 + 1)) (vp o) (at1 (vs o)) -> disj (ix1 n) (vp i) (at1 (vs i)) (ix1 (n / 2 + 1)) (vp o) (at1 (vs o)) ->
  computes R (fft1_by_reference R t R2C e n ne1 sc i o) (ix1 n) (vp i) (at1 (vs i)) x (ix1 (n / 2 + 1)) (vp o) (at1 (vs o)) (fun w => DFT R t (-1) n x w * ofR R sc)%cr.
Proof.
  intros R t e n ne1 sc [ip is il] [op os ol] x H1 Ei Eo Ci Co D DI. cbn [vp vs vn] in *. subst il ol.
  apply (front_ok R (rdft1 R t ip is op os n) _ ne1 sc); [exact H1|exact D|left; apply cpx_nreal, Co| |].
  - apply C50_real_to_complex_lemma; assumption.
  - intros m. unfold fft1_by_reference. cbn [vp vs vn in_size out_size]. rewrite !Nat.eqb_refl. reflexivity.
Qed.

Lemma C53_scaled_complex_to_real_lemma : forall (R : CRing) (t : trig R) e n ne1 sc i o x,
  (ne1 = false -> sc = 1%cr) -> vn i = n / 2 + 1 -> vn o = n ->
  cpx_ptr (vp i) -> real_ptr (vp o) -> dist (ix1 n) (vp o) (at1 (vs o)) -> disj (ix1 (n / 2 + 1)) (vp i) (at1 (vs i)) (ix1 n) (vp o) (at1 (vs o)) ->
  computes R (fft1_by_reference R t C2R e n ne1 sc i o) (ix1 (n / 2 + 1)) (vp i) (at1 (vs i)) x (ix1 n) (vp o) (at1 (vs o))
    (fun w => ofR R (fst (DFT R t 1 n (herm R n x) w)) * ofR R sc)%cr.
Proof.
  intros R t e n ne1 sc [ip is il] [op os ol] x H1 Ei Eo Ci Co D DI. cbn [vp vs vn] in *. subst il ol.
  apply (front_ok R (crdft1 R t ip is op os n) _ ne1 sc); [exact H1|exact D|right; intros w _; eexists; reflexivity| |].
  - apply C50_complex_to_real_lemma; assumption.
  - intros m. unfold fft1_by_reference. cbn [vp vs vn in_size out_size]. rewrite !Nat.eqb_refl. reflexivity.
Qed.

Lemma C53_scaled_in_place_lemma : forall (R : CRing) (t : trig R) e n ne1 sc io x,
  (ne1 = false -> sc = 1%cr) -> vn io = n -> cpx_ptr (vp io) -> dist (ix1 n) (vp io) (at1 (vs io)) ->
  computes R (fft1_in_place R t e n ne1 sc io) (ix1 n) (vp io) (at1 (vs io)) x (ix1 n) (vp io) (at1 (vs io)) (fun w => DFT R t e n x w * ofR R sc)%cr.
Proof.
  intros R t e n ne1 sc [op os ol] x H1 Eo Co D. cbn [vp vs vn] in *. subst ol.
  apply (front_ok R (dft1_in_place R t e op os n) _ ne1 sc); [exact H1|exact D|left; apply cpx_nreal, Co| |].
  - apply C50_one_dim_in_place_lemma; assumption.
  - intros m. unfold fft1_in_place. cbn [vp vs vn in_size out_size]. rewrite Nat.eqb_refl. reflexivity.
Qed.

Lemma C53_wrong_size_rejected_lemma : forall (R : CRing) (t : trig R) k e n ne1 sc i o m,
  fft1_by_reference R t k e n ne1 sc i o m <> None ->
  vn i = match k with C2R => n / 2 + 1 | _ => n end /\ vn o = match k with R2C => n / 2 + 1 | _ => n end.
Proof.
  intros R t k e n ne1 sc i o m H. unfold fft1_by_reference in H.
  destruct (Nat.eqb_spec (vn i) (in_size k n)) as [E1|E1]; [|contradiction]. destruct (Nat.eqb_spec (vn o) (out_size k n)) as [E2|E2]; [|contradiction].
  split; [rewrite E1|rewrite E2]; destruct k; reflexivity.
Qed.

Lemma C53_round_trip_lemma : forall (R : CRing) (t : trig R) n nf sf ni si i o m x,
  exact R t n -> (nf = false -> sf = 1%cr) -> (ni = false -> si = 1%cr) -> (fst (nat_r R n) * (sf * si))%cr = 1%cr ->
  vn i = n -> vn o = n -> cpx_ptr (vp i) -> cpx_ptr (vp o) ->
  dist (ix1 n) (vp i) (at1 (vs i)) -> dist (ix1 n) (vp o) (at1 (vs o)) ->
  disj (ix1 n) (vp i) (at1 (vs i)) (ix1 n) (vp o) (at1 (vs o)) -> disj (ix1 n) (vp o) (at1 (vs o)) (ix1 n) (vp i) (at1 (vs i)) ->
  holds R m (ix1 n) (vp i) (at1 (vs i)) x -> room R m (ix1 n) (vp i) (at1 (vs i)) -> room R m (ix1 n) (vp o) (at1 (vs o)) ->
  exists m1 m2, fft1_by_reference R t C2C (-1) n nf sf i o m = Some m1 /\ fft1_by_reference R t C2C 1 n ni si o i m1 = Some m2 /\
    holds R m2 (ix1 n) (vp i) (at1 (vs i)) x.
Proof.
  intros R t n nf sf ni si i o m x ex Hf Hi Hs Ei Eo Ci Co Di Do D1 D2 H Ri Ro.
  destruct (computes_seq R _ _ _ _ _ _ _ _ _ _ _ _ _ _ m (C53_scaled_transform_lemma R t (-1) n nf sf i o x Hf Ei Eo Ci Co Do D1) (C53_scaled_transform_lemma R t 1 n ni si o i _ Hi Eo Ei Co Ci Di D2) H Ro Ri) as (m1 & m2 & E1 & E2 & _ & G).
  exists m1, m2. split; [exact E1|]. split; [exact E2|]. intros k Hk. rewrite (G k Hk). f_equal. apply (round_val R t n ex sf si x k Hs Hk).
Qed.

