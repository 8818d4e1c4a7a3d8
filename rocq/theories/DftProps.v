(** C50 to C53: the generic Fourier-transform backend. *)
From Coq Require Import ZArith List Bool Arith Lia.
From Verif Require Import Base Dft DftFinal DftExamples.
Import ListNotations.
Local Open Scope nat_scope.

Theorem C50_one_dim : forall (R : CRing) (t : trig R) e p sp q sq l x,
  cpx_ptr p -> cpx_ptr q -> dist (ix1 l) q (at1 sq) -> disj (ix1 l) p (at1 sp) (ix1 l) q (at1 sq) ->
  computes R (dft1_out_of_place R t e p sp q sq l) (ix1 l) p (at1 sp) x (ix1 l) q (at1 sq) (DFT R t e l x).
Proof. exact C50_one_dim_lemma. Qed.
(** Input at offsets 0, 2, 4, 6 of a complex array, output in a split array that is laid out backwards. *)
Example C50_one_dim_ex :
  cpx_ptr (Inter 0) /\ cpx_ptr (Split 3 7) /\ dist (ix1 4) (Split 3 7) (at1 (-1)) /\ disj (ix1 4) (Inter 0) (at1 2) (ix1 4) (Split 3 7) (at1 (-1)) /\
  outr [0; 1; 2; 3; 4; 5; 6; 7; 8]%Z (dft1_out_of_place Zring ztrig (-1) (Inter 0) 2 (Split 3 7) (-1) 4
    (zmem [9; 9; 9; 9; 9; 9; 9; 9; 9]%Z [(1, 0); (9, 9); (2, 1); (9, 9); (0, 3); (9, 9); (4, 0); (9, 9)]%Z)) =
  Some (map Some [0; -5; 2; 7; -5; 2; -1; 4; 9]%Z).
Proof. split; [lays|]. split; [lays|]. split; [lays|]. split; [lays|]. vm_compute. reflexivity. Qed.
Print Assumptions C50_one_dim.

Theorem C50_one_dim_in_place : forall (R : CRing) (t : trig R) e q s l x,
  cpx_ptr q -> dist (ix1 l) q (at1 s) ->
  computes R (dft1_in_place R t e q s l) (ix1 l) q (at1 s) x (ix1 l) q (at1 s) (DFT R t e l x).
Proof. exact C50_one_dim_in_place_lemma. Qed.
Example C50_one_dim_in_place_ex :
  cpx_ptr (Inter 1) /\ dist (ix1 4) (Inter 1) (at1 2) /\
  outc [0; 1; 2; 3; 4; 5; 6; 7]%Z (dft1_in_place Zring ztrig 1 (Inter 1) 2 4 (zmem [] [(9, 9); (1, 0); (9, 9); (2, 1); (9, 9); (0, 3); (9, 9); (4, 0)]%Z)) =
  Some (map Some [(9, 9); (7, 4); (9, 9); (0, -5); (9, 9); (-5, 2); (9, 9); (2, -1)]%Z).
Proof. split; [lays|]. split; [lays|]. vm_compute. reflexivity. Qed.
Print Assumptions C50_one_dim_in_place.

Theorem C50_real_to_complex : forall (R : CRing) (t : trig R) p sp q sq l x,
  real_ptr p -> cpx_ptr q -> dist (ix1 (l / 2 + 1)) q (at1 sq) -> disj (ix1 l) p (at1 sp) (ix1 (l / 2 + 1)) q (at1 sq) ->
  computes R (rdft1 R t p sp q sq l) (ix1 l) p (at1 sp) x (ix1 (l / 2 + 1)) q (at1 sq) (DFT R t (-1) l x).
Proof. exact C50_real_to_complex_lemma. Qed.
(** Length 4 gives the 3 values of the half spectrum and leaves the fourth cell alone. *)
Example C50_real_to_complex_ex :
  real_ptr (Real 0) /\ cpx_ptr (Inter 0) /\ dist (ix1 (4 / 2 + 1)) (Inter 0) (at1 1) /\ disj (ix1 4) (Real 0) (at1 1) (ix1 (4 / 2 + 1)) (Inter 0) (at1 1) /\
  outc [0; 1; 2; 3]%Z (rdft1 Zring ztrig (Real 0) 1 (Inter 0) 1 4 (zmem [1; 2; 3; 5] [(9, 9); (9, 9); (9, 9); (9, 9)])%Z) =
  Some (map Some [(11, 0); (-2, 3); (-3, 0); (9, 9)]%Z).
Proof. split; [lays|]. split; [lays|]. split; [lays|]. split; [lays|]. vm_compute. reflexivity. Qed.
Print Assumptions C50_real_to_complex.

Theorem C50_complex_to_real : forall (R : CRing) (t : trig R) p sp q sq l x,
  cpx_ptr p -> real_ptr q -> dist (ix1 l) q (at1 sq) -> disj (ix1 (l / 2 + 1)) p (at1 sp) (ix1 l) q (at1 sq) ->
  computes R (crdft1 R t p sp q sq l) (ix1 (l / 2 + 1)) p (at1 sp) x (ix1 l) q (at1 sq) (fun w => ofR R (fst (DFT R t 1 l (herm R l x) w))).
Proof. exact C50_complex_to_real_lemma. Qed.
Example C50_complex_to_real_ex :
  cpx_ptr (Inter 0) /\ real_ptr (Real 0) /\ dist (ix1 4) (Real 0) (at1 1) /\ disj (ix1 (4 / 2 + 1)) (Inter 0) (at1 1) (ix1 4) (Real 0) (at1 1) /\
  outr [0; 1; 2; 3; 4]%Z (crdft1 Zring ztrig (Inter 0) 1 (Real 0) 1 4 (zmem [9; 9; 9; 9; 9] [(11, 0); (-2, 3); (-3, 0)])%Z) =
  Some (map Some [4; 8; 12; 20; 9]%Z).
Proof. split; [lays|]. split; [lays|]. split; [lays|]. split; [lays|]. vm_compute. reflexivity. Qed.
Print Assumptions C50_complex_to_real.

Theorem C50_two_dim : forall (R : CRing) (t : trig R) e p irs ics q ors ocs rows cols x,
  cpx_ptr p -> cpx_ptr q -> dist (ix2 rows cols) q (at2 ors ocs) -> disj (ix2 rows cols) p (at2 irs ics) (ix2 rows cols) q (at2 ors ocs) ->
  computes R (dft2_out_of_place R t e p irs ics q ors ocs rows cols) (ix2 rows cols) p (at2 irs ics) x (ix2 rows cols) q (at2 ors ocs)
    (fun rc => DFT2 R t e rows cols (fun r c => x (r, c)) (fst rc) (snd rc)).
Proof. exact C50_two_dim_lemma. Qed.
(** A 2 by 4 row-major matrix into a column-major one. *)
Example C50_two_dim_ex :
  dist (ix2 2 4) (Inter 8) (at2 1 2) /\ disj (ix2 2 4) (Inter 0) (at2 4 1) (ix2 2 4) (Inter 8) (at2 1 2) /\
  outc [8; 9; 10; 11; 12; 13; 14; 15]%Z (dft2_out_of_place Zring ztrig (-1) (Inter 0) 4 1 (Inter 8) 1 2 2 4
    (zmem [] ([(1, 0); (2, 0); (3, 0); (5, 0); (0, 1); (0, 0); (2, 0); (0, 0)] ++ repeat (9, 9) 8)%Z)) =
  Some (map Some [(13, 1); (9, -1); (-4, 4); (0, 2); (-1, 1); (-5, -1); (-4, -2); (0, -4)]%Z).
Proof. split; [lays|]. split; [lays|]. vm_compute. reflexivity. Qed.
Print Assumptions C50_two_dim.

Theorem C50_two_dim_in_place : forall (R : CRing) (t : trig R) e q rs cstr rows cols x,
  cpx_ptr q -> dist (ix2 rows cols) q (at2 rs cstr) ->
  computes R (dft2_in_place R t e q rs cstr rows cols) (ix2 rows cols) q (at2 rs cstr) x (ix2 rows cols) q (at2 rs cstr)
    (fun rc => DFT2 R t e rows cols (fun r c => x (r, c)) (fst rc) (snd rc)).
Proof. exact C50_two_dim_in_place_lemma. Qed.
Example C50_two_dim_in_place_ex :
  dist (ix2 2 2) (Inter 0) (at2 2 1) /\
  outc [0; 1; 2; 3]%Z (dft2_in_place Zring ztrig (-1) (Inter 0) 2 1 2 2 (zmem [] [(1, 0); (2, 1); (3, 0); (7, 0)]%Z)) =
  Some (map Some [(13, 1); (-5, -1); (-7, 1); (3, -1)]%Z).
Proof. split; [lays|]. vm_compute. reflexivity. Qed.
Print Assumptions C50_two_dim_in_place.

Theorem C50_two_dim_real_axis0 : forall (R : CRing) (t : trig R) p irs ics q ors ocs rows cols x,
  real_ptr p -> cpx_ptr q -> dist (ix2 (rows / 2 + 1) cols) q (at2 ors ocs) -> disj (ix2 rows cols) p (at2 irs ics) (ix2 (rows / 2 + 1) cols) q (at2 ors ocs) ->
  computes R (rdft2 R t 0 p irs ics q ors ocs rows cols) (ix2 rows cols) p (at2 irs ics) x (ix2 (rows / 2 + 1) cols) q (at2 ors ocs)
    (fun rc => DFT2 R t (-1) rows cols (fun r c => x (r, c)) (fst rc) (snd rc)).
Proof. exact C50_two_dim_real_axis0_lemma. Qed.
Example C50_two_dim_real_axis0_ex :
  dist (ix2 (4 / 2 + 1) 2) (Inter 0) (at2 2 1) /\ disj (ix2 4 2) (Real 0) (at2 2 1) (ix2 (4 / 2 + 1) 2) (Inter 0) (at2 2 1) /\
  outc [0; 1; 2; 3; 4; 5; 6]%Z (rdft2 Zring ztrig 0 (Real 0) 2 1 (Inter 0) 2 1 4 2 (zmem [1; 2; 3; 4; 0; 6; 7; 1]%Z (repeat (9, 9)%Z 8))) =
  Some (map Some [(24, 0); (-2, 0); (-3, 1); (5, 7); (-6, 0); (-12, 0); (9, 9)]%Z).
Proof. split; [lays|]. split; [lays|]. vm_compute. reflexivity. Qed.
Print Assumptions C50_two_dim_real_axis0.

Theorem C50_two_dim_real_axis1 : forall (R : CRing) (t : trig R) p irs ics q ors ocs rows cols x,
  real_ptr p -> cpx_ptr q -> dist (ix2 rows (cols / 2 + 1)) q (at2 ors ocs) -> disj (ix2 rows cols) p (at2 irs ics) (ix2 rows (cols / 2 + 1)) q (at2 ors ocs) ->
  computes R (rdft2 R t 1 p irs ics q ors ocs rows cols) (ix2 rows cols) p (at2 irs ics) x (ix2 rows (cols / 2 + 1)) q (at2 ors ocs)
    (fun rc => DFT2 R t (-1) rows cols (fun r c => x (r, c)) (fst rc) (snd rc)).
Proof. exact C50_two_dim_real_axis1_lemma. Qed.
Example C50_two_dim_real_axis1_ex :
  dist (ix2 2 (4 / 2 + 1)) (Inter 0) (at2 3 1) /\ disj (ix2 2 4) (Real 0) (at2 4 1) (ix2 2 (4 / 2 + 1)) (Inter 0) (at2 3 1) /\
  outc [0; 1; 2; 3; 4; 5; 6]%Z (rdft2 Zring ztrig 1 (Real 0) 4 1 (Inter 0) 3 1 2 4 (zmem [1; 2; 3; 4; 0; 6; 7; 1]%Z (repeat (9, 9)%Z 8))) =
  Some (map Some [(24, 0); (-9, -3); (-2, 0); (-4, 0); (5, 7); (-2, 0); (9, 9)]%Z).
Proof. split; [lays|]. split; [lays|]. vm_compute. reflexivity. Qed.
Print Assumptions C50_two_dim_real_axis1.

Theorem C50_three_dim : forall (R : CRing) (t : trig R) e p ixs iys izs q oxs oys ozs nx ny nz X,
  cpx_ptr p -> cpx_ptr q ->
  (forall x, x < nx -> int_ok p (off x ixs)) -> (forall x, x < nx -> int_ok q (off x oxs)) ->
  (forall y z, y < ny -> z < nz -> int_ok q (off y oys + off z ozs)) ->
  dist (ix3 nx ny nz) q (at3 oxs oys ozs) -> disj (ix3 nx ny nz) p (at3 ixs iys izs) (ix3 nx ny nz) q (at3 oxs oys ozs) ->
  computes R (dft3_out_of_place R t e p ixs iys izs q oxs oys ozs nx ny nz) (ix3 nx ny nz) p (at3 ixs iys izs) X (ix3 nx ny nz) q (at3 oxs oys ozs)
    (fun i => DFT3 R t e nx ny nz (fun x y z => X (x, (y, z))) (fst i) (fst (snd i)) (snd (snd i))).
Proof. exact C50_three_dim_lemma. Qed.
Example C50_three_dim_ex :
  (forall x, x < 2 -> int_ok (Inter 0) (off x 4)) /\
  dist (ix3 2 2 2) (Inter 8) (at3 4 2 1) /\ disj (ix3 2 2 2) (Inter 0) (at3 4 2 1) (ix3 2 2 2) (Inter 8) (at3 4 2 1) /\
  outc [8; 9; 10; 11; 12; 13; 14; 15]%Z (dft3_out_of_place Zring ztrig (-1) (Inter 0) 4 2 1 (Inter 8) 4 2 1 2 2 2
    (zmem [] ([(1, 0); (0, 0); (2, 1); (0, 0); (3, 0); (5, 0); (0, 0); (0, 0)] ++ repeat (9, 9) 8)%Z)) =
  Some (map Some [(11, 1); (1, 1); (7, -1); (-3, -1); (-5, 1); (5, 1); (-9, -1); (1, -1)]%Z).
Proof. split; [lays|]. split; [lays|]. split; [lays|]. vm_compute. reflexivity. Qed.
Print Assumptions C50_three_dim.

Theorem C50_three_dim_in_place : forall (R : CRing) (t : trig R) e q xs ys zs nx ny nz X,
  cpx_ptr q -> (forall x, x < nx -> int_ok q (off x xs)) -> (forall y z, y < ny -> z < nz -> int_ok q (off y ys + off z zs)) ->
  dist (ix3 nx ny nz) q (at3 xs ys zs) ->
  computes R (dft3_in_place R t e q xs ys zs nx ny nz) (ix3 nx ny nz) q (at3 xs ys zs) X (ix3 nx ny nz) q (at3 xs ys zs)
    (fun i => DFT3 R t e nx ny nz (fun x y z => X (x, (y, z))) (fst i) (fst (snd i)) (snd (snd i))).
Proof. exact C50_three_dim_in_place_lemma. Qed.
Example C50_three_dim_in_place_ex :
  dist (ix3 2 2 2) (Inter 0) (at3 4 2 1) /\
  outc [0; 1; 2; 3; 4; 5; 6; 7]%Z (dft3_in_place Zring ztrig (-1) (Inter 0) 4 2 1 2 2 2
    (zmem [] [(1, 0); (0, 0); (2, 1); (0, 0); (3, 0); (5, 0); (0, 0); (0, 0)]%Z)) =
  Some (map Some [(11, 1); (1, 1); (7, -1); (-3, -1); (-5, 1); (5, 1); (-9, -1); (1, -1)]%Z).
Proof. split; [lays|]. vm_compute. reflexivity. Qed.
Print Assumptions C50_three_dim_in_place.

Theorem C50_three_dim_real_axis0 : forall (R : CRing) (t : trig R) p ixs iys izs q oxs oys ozs nx ny nz X,
  real_ptr p -> cpx_ptr q -> (forall x, x < nx / 2 + 1 -> int_ok q (off x oxs)) -> (forall y z, y < ny -> z < nz -> int_ok q (off y oys + off z ozs)) ->
  dist (ix3 (nx / 2 + 1) ny nz) q (at3 oxs oys ozs) -> disj (ix3 nx ny nz) p (at3 ixs iys izs) (ix3 (nx / 2 + 1) ny nz) q (at3 oxs oys ozs) ->
  computes R (rdft3 R t 0 p ixs iys izs q oxs oys ozs nx ny nz) (ix3 nx ny nz) p (at3 ixs iys izs) X (ix3 (nx / 2 + 1) ny nz) q (at3 oxs oys ozs)
    (fun i => DFT3 R t (-1) nx ny nz (fun x y z => X (x, (y, z))) (fst i) (fst (snd i)) (snd (snd i))).
Proof. exact C50_three_dim_real_axis0_lemma. Qed.
Example C50_three_dim_real_axis0_ex :
  dist (ix3 (2 / 2 + 1) 2 2) (Inter 0) (at3 4 2 1) /\
  outc [0; 1; 2; 3; 4; 5; 6; 7]%Z (rdft3 Zring ztrig 0 (Real 0) 4 2 1 (Inter 0) 4 2 1 2 2 2 (zmem [1; 0; 2; 0; 3; 5; 0; 0]%Z (repeat (9, 9)%Z 8))) =
  Some (map Some [(11, 0); (1, 0); (7, 0); (-3, 0); (-5, 0); (5, 0); (-9, 0); (1, 0)]%Z).
Proof. split; [lays|]. vm_compute. reflexivity. Qed.
Print Assumptions C50_three_dim_real_axis0.

Theorem C50_three_dim_real_axis1 : forall (R : CRing) (t : trig R) p ixs iys izs q oxs oys ozs nx ny nz X,
  real_ptr p -> cpx_ptr q -> (forall y, y < ny / 2 + 1 -> int_ok q (off y oys)) -> (forall x z, x < nx -> z < nz -> int_ok q (off x oxs + off z ozs)) ->
  dist (ix3 nx (ny / 2 + 1) nz) q (at3 oxs oys ozs) -> disj (ix3 nx ny nz) p (at3 ixs iys izs) (ix3 nx (ny / 2 + 1) nz) q (at3 oxs oys ozs) ->
  computes R (rdft3 R t 1 p ixs iys izs q oxs oys ozs nx ny nz) (ix3 nx ny nz) p (at3 ixs iys izs) X (ix3 nx (ny / 2 + 1) nz) q (at3 oxs oys ozs)
    (fun i => DFT3 R t (-1) nx ny nz (fun x y z => X (x, (y, z))) (fst i) (fst (snd i)) (snd (snd i))).
Proof. exact C50_three_dim_real_axis1_lemma. Qed.
Example C50_three_dim_real_axis1_ex :
  dist (ix3 1 (4 / 2 + 1) 2) (Inter 0) (at3 6 2 1) /\
  outc [0; 1; 2; 3; 4; 5; 6]%Z (rdft3 Zring ztrig 1 (Real 0) 8 2 1 (Inter 0) 6 2 1 1 4 2 (zmem [1; 2; 3; 4; 0; 6; 7; 1]%Z (repeat (9, 9)%Z 8))) =
  Some (map Some [(24, 0); (-2, 0); (-3, 1); (5, 7); (-6, 0); (-12, 0); (9, 9)]%Z).
Proof. split; [lays|]. vm_compute. reflexivity. Qed.
Print Assumptions C50_three_dim_real_axis1.

Theorem C50_three_dim_real_axis2 : forall (R : CRing) (t : trig R) p ixs iys izs q oxs oys ozs nx ny nz X,
  real_ptr p -> cpx_ptr q -> (forall z, z < nz / 2 + 1 -> int_ok q (off z ozs)) -> (forall x y, x < nx -> y < ny -> int_ok q (off x oxs + off y oys)) ->
  dist (ix3 nx ny (nz / 2 + 1)) q (at3 oxs oys ozs) -> disj (ix3 nx ny nz) p (at3 ixs iys izs) (ix3 nx ny (nz / 2 + 1)) q (at3 oxs oys ozs) ->
  computes R (rdft3 R t 2 p ixs iys izs q oxs oys ozs nx ny nz) (ix3 nx ny nz) p (at3 ixs iys izs) X (ix3 nx ny (nz / 2 + 1)) q (at3 oxs oys ozs)
    (fun i => DFT3 R t (-1) nx ny nz (fun x y z => X (x, (y, z))) (fst i) (fst (snd i)) (snd (snd i))).
Proof. exact C50_three_dim_real_axis2_lemma. Qed.
Example C50_three_dim_real_axis2_ex :
  dist (ix3 1 2 (4 / 2 + 1)) (Inter 0) (at3 6 3 1) /\
  outc [0; 1; 2; 3; 4; 5; 6]%Z (rdft3 Zring ztrig 2 (Real 0) 8 4 1 (Inter 0) 6 3 1 1 2 4 (zmem [1; 2; 3; 4; 0; 6; 7; 1]%Z (repeat (9, 9)%Z 8))) =
  Some (map Some [(24, 0); (-9, -3); (-2, 0); (-4, 0); (5, 7); (-2, 0); (9, 9)]%Z).
Proof. split; [lays|]. vm_compute. reflexivity. Qed.
Print Assumptions C50_three_dim_real_axis2.

Theorem C50_two_dim_complex_to_real_axis0 : forall (R : CRing) (t : trig R) p irs ics q ors ocs rows cols x,
  cpx_ptr p -> real_ptr q -> (forall r, r < rows / 2 + 1 -> int_ok p (off r irs)) -> dist (ix2 rows cols) q (at2 ors ocs) ->
  computes R (crdft2 R t 0 p irs ics q ors ocs rows cols) (ix2 (rows / 2 + 1) cols) p (at2 irs ics) x (ix2 rows cols) q (at2 ors ocs)
    (fun rc => ofR R (fst (DFT R t 1 rows (herm R rows (fun r => DFT R t 1 cols (fun c => x (r, c)) (snd rc))) (fst rc)))).
Proof. exact C50_two_dim_complex_to_real_axis0_lemma. Qed.
Example C50_two_dim_complex_to_real_axis0_ex :
  outr [0; 1; 2; 3; 4; 5; 6; 7]%Z (crdft2 Zring ztrig 0 (Inter 0) 2 1 (Real 0) 2 1 4 2 (zmem (repeat 9%Z 8) [(24, 0); (-2, 0); (-3, 1); (5, 7); (-6, 0); (-12, 0)]%Z)) =
  Some (map Some [8; 16; 24; 32; 0; 48; 56; 8]%Z).
Proof. vm_compute. reflexivity. Qed.
Print Assumptions C50_two_dim_complex_to_real_axis0.

Theorem C50_two_dim_complex_to_real_axis1 : forall (R : CRing) (t : trig R) p irs ics q ors ocs rows cols x,
  cpx_ptr p -> real_ptr q -> (forall c, c < cols / 2 + 1 -> int_ok p (off c ics)) -> dist (ix2 rows cols) q (at2 ors ocs) ->
  computes R (crdft2 R t 1 p irs ics q ors ocs rows cols) (ix2 rows (cols / 2 + 1)) p (at2 irs ics) x (ix2 rows cols) q (at2 ors ocs)
    (fun rc => ofR R (fst (DFT R t 1 cols (herm R cols (fun c => DFT R t 1 rows (fun r => x (r, c)) (fst rc))) (snd rc)))).
Proof. exact C50_two_dim_complex_to_real_axis1_lemma. Qed.
Example C50_two_dim_complex_to_real_axis1_ex :
  outr [0; 1; 2; 3; 4; 5; 6; 7]%Z (crdft2 Zring ztrig 1 (Inter 0) 3 1 (Real 0) 4 1 2 4 (zmem (repeat 9%Z 8) [(24, 0); (-9, -3); (-2, 0); (-4, 0); (5, 7); (-2, 0)]%Z)) =
  Some (map Some [8; 16; 24; 32; 0; 48; 56; 8]%Z).
Proof. vm_compute. reflexivity. Qed.
Print Assumptions C50_two_dim_complex_to_real_axis1.

Theorem C50_three_dim_complex_to_real_axis0 : forall (R : CRing) (t : trig R) p ixs iys izs q oxs oys ozs nx ny nz X,
  cpx_ptr p -> real_ptr q -> (forall x, x < nx / 2 + 1 -> int_ok p (off x ixs)) -> dist (ix3 nx ny nz) q (at3 oxs oys ozs) ->
  computes R (crdft3 R t 0 p ixs iys izs q oxs oys ozs nx ny nz) (ix3 (nx / 2 + 1) ny nz) p (at3 ixs iys izs) X (ix3 nx ny nz) q (at3 oxs oys ozs)
    (fun i => ofR R (fst (DFT R t 1 nx (herm R nx (fun x => DFT2 R t 1 ny nz (fun y z => X (x, (y, z))) (fst (snd i)) (snd (snd i)))) (fst i)))).
Proof. exact C50_three_dim_complex_to_real_axis0_lemma. Qed.
Example C50_three_dim_complex_to_real_axis0_ex :
  outr [0; 1; 2; 3; 4; 5; 6; 7]%Z (crdft3 Zring ztrig 0 (Inter 0) 2 1 6 (Real 0) 2 1 8 4 2 1 (zmem (repeat 9%Z 8) [(24, 0); (-2, 0); (-3, 1); (5, 7); (-6, 0); (-12, 0)]%Z)) =
  Some (map Some [8; 16; 24; 32; 0; 48; 56; 8]%Z).
Proof. vm_compute. reflexivity. Qed.
Print Assumptions C50_three_dim_complex_to_real_axis0.

Theorem C50_three_dim_complex_to_real_axis1 : forall (R : CRing) (t : trig R) p ixs iys izs q oxs oys ozs nx ny nz X,
  cpx_ptr p -> real_ptr q -> (forall y, y < ny / 2 + 1 -> int_ok p (off y iys)) -> dist (ix3 nx ny nz) q (at3 oxs oys ozs) ->
  computes R (crdft3 R t 1 p ixs iys izs q oxs oys ozs nx ny nz) (ix3 nx (ny / 2 + 1) nz) p (at3 ixs iys izs) X (ix3 nx ny nz) q (at3 oxs oys ozs)
    (fun i => ofR R (fst (DFT R t 1 ny (herm R ny (fun y => DFT2 R t 1 nx nz (fun x z => X (x, (y, z))) (fst i) (snd (snd i)))) (fst (snd i))))).
Proof. exact C50_three_dim_complex_to_real_axis1_lemma. Qed.
Example C50_three_dim_complex_to_real_axis1_ex :
  outr [0; 1; 2; 3; 4; 5; 6; 7]%Z (crdft3 Zring ztrig 1 (Inter 0) 6 2 1 (Real 0) 8 2 1 1 4 2 (zmem (repeat 9%Z 8) [(24, 0); (-2, 0); (-3, 1); (5, 7); (-6, 0); (-12, 0)]%Z)) =
  Some (map Some [8; 16; 24; 32; 0; 48; 56; 8]%Z).
Proof. vm_compute. reflexivity. Qed.
Print Assumptions C50_three_dim_complex_to_real_axis1.

Theorem C50_three_dim_complex_to_real_axis2 : forall (R : CRing) (t : trig R) p ixs iys izs q oxs oys ozs nx ny nz X,
  cpx_ptr p -> real_ptr q -> (forall z, z < nz / 2 + 1 -> int_ok p (off z izs)) -> dist (ix3 nx ny nz) q (at3 oxs oys ozs) ->
  computes R (crdft3 R t 2 p ixs iys izs q oxs oys ozs nx ny nz) (ix3 nx ny (nz / 2 + 1)) p (at3 ixs iys izs) X (ix3 nx ny nz) q (at3 oxs oys ozs)
    (fun i => ofR R (fst (DFT R t 1 nz (herm R nz (fun z => DFT2 R t 1 nx ny (fun x y => X (x, (y, z))) (fst i) (fst (snd i)))) (snd (snd i))))).
Proof. exact C50_three_dim_complex_to_real_axis2_lemma. Qed.
Example C50_three_dim_complex_to_real_axis2_ex :
  outr [0; 1; 2; 3; 4; 5; 6; 7]%Z (crdft3 Zring ztrig 2 (Inter 0) 6 3 1 (Real 0) 8 4 1 1 2 4 (zmem (repeat 9%Z 8) [(24, 0); (-9, -3); (-2, 0); (-4, 0); (5, 7); (-2, 0)]%Z)) =
  Some (map Some [8; 16; 24; 32; 0; 48; 56; 8]%Z).
Proof. vm_compute. reflexivity. Qed.
Print Assumptions C50_three_dim_complex_to_real_axis2.

Theorem C51_one_dim : forall (R : CRing) (t : trig R) e p sp q sq r sr l x m,
  (e = 1 \/ e = -1)%Z -> exact R t l -> cpx_ptr p -> cpx_ptr q -> cpx_ptr r ->
  dist (ix1 l) q (at1 sq) -> disj (ix1 l) p (at1 sp) (ix1 l) q (at1 sq) ->
  dist (ix1 l) r (at1 sr) -> disj (ix1 l) q (at1 sq) (ix1 l) r (at1 sr) ->
  holds R m (ix1 l) p (at1 sp) x -> room R m (ix1 l) q (at1 sq) -> room R m (ix1 l) r (at1 sr) ->
  exists m1 m2, dft1_out_of_place R t (- e) p sp q sq l m = Some m1 /\ dft1_out_of_place R t e q sq r sr l m1 = Some m2 /\
    holds R m2 (ix1 l) r (at1 sr) (fun k => nat_r R l * x k)%cr.
Proof. exact C51_one_dim_lemma. Qed.
Example C51_one_dim_ex : exact Zring ztrig 4 /\
  outc [0; 1; 2; 3]%Z (m <- dft1_out_of_place Zring ztrig (-1) (Inter 0) 1 (Inter 4) 1 4 (zmem [] ([(1, 0); (2, 1); (0, 3); (4, 0)] ++ repeat (9, 9) 4)%Z);;
    dft1_out_of_place Zring ztrig 1 (Inter 4) 1 (Inter 0) 1 4 m) = Some (map Some [(4, 0); (8, 4); (0, 12); (16, 0)]%Z).
Proof. split; [apply ztrig4|]. vm_compute. reflexivity. Qed.
Print Assumptions C51_one_dim.

Theorem C51_one_dim_in_place : forall (R : CRing) (t : trig R) e q s l x m,
  (e = 1 \/ e = -1)%Z -> exact R t l -> cpx_ptr q -> dist (ix1 l) q (at1 s) ->
  holds R m (ix1 l) q (at1 s) x -> room R m (ix1 l) q (at1 s) ->
  exists m1 m2, dft1_in_place R t (- e) q s l m = Some m1 /\ dft1_in_place R t e q s l m1 = Some m2 /\
    holds R m2 (ix1 l) q (at1 s) (fun k => nat_r R l * x k)%cr.
Proof. exact C51_one_dim_in_place_lemma. Qed.
Example C51_one_dim_in_place_ex : exact Zring ztrig 4 /\
  outc [0; 1; 2; 3]%Z (m <- dft1_in_place Zring ztrig (-1) (Inter 0) 1 4 (zmem [] [(1, 0); (2, 1); (0, 3); (4, 0)]%Z);;
    dft1_in_place Zring ztrig 1 (Inter 0) 1 4 m) = Some (map Some [(4, 0); (8, 4); (0, 12); (16, 0)]%Z).
Proof. split; [apply ztrig4|]. vm_compute. reflexivity. Qed.
Print Assumptions C51_one_dim_in_place.

Theorem C51_one_dim_real : forall (R : CRing) (t : trig R) p sp q sq r sr l x m,
  exact R t l -> real_ptr p -> cpx_ptr q -> real_ptr r ->
  dist (ix1 (l / 2 + 1)) q (at1 sq) -> disj (ix1 l) p (at1 sp) (ix1 (l / 2 + 1)) q (at1 sq) ->
  dist (ix1 l) r (at1 sr) -> disj (ix1 (l / 2 + 1)) q (at1 sq) (ix1 l) r (at1 sr) ->
  holds R m (ix1 l) p (at1 sp) (fun k => ofR R (x k)) -> room R m (ix1 (l / 2 + 1)) q (at1 sq) -> room R m (ix1 l) r (at1 sr) ->
  exists m1 m2, rdft1 R t p sp q sq l m = Some m1 /\ crdft1 R t q sq r sr l m1 = Some m2 /\
    holds R m2 (ix1 l) r (at1 sr) (fun k => nat_r R l * ofR R (x k))%cr.
Proof. exact C51_one_dim_real_lemma. Qed.
Example C51_one_dim_real_ex : exact Zring ztrig 4 /\
  outr [0; 1; 2; 3]%Z (m <- rdft1 Zring ztrig (Real 0) 1 (Inter 0) 1 4 (zmem [1; 2; 3; 5]%Z (repeat (9, 9)%Z 3));;
    crdft1 Zring ztrig (Inter 0) 1 (Real 0) 1 4 m) = Some (map Some [4; 8; 12; 20]%Z).
Proof. split; [apply ztrig4|]. vm_compute. reflexivity. Qed.
Print Assumptions C51_one_dim_real.

Theorem C51_two_dim : forall (R : CRing) (t : trig R) e p irs ics q ors ocs r rrs rcs rows cols x m,
  (e = 1 \/ e = -1)%Z -> exact R t rows -> exact R t cols -> cpx_ptr p -> cpx_ptr q -> cpx_ptr r ->
  dist (ix2 rows cols) q (at2 ors ocs) -> disj (ix2 rows cols) p (at2 irs ics) (ix2 rows cols) q (at2 ors ocs) ->
  dist (ix2 rows cols) r (at2 rrs rcs) -> disj (ix2 rows cols) q (at2 ors ocs) (ix2 rows cols) r (at2 rrs rcs) ->
  holds R m (ix2 rows cols) p (at2 irs ics) x -> room R m (ix2 rows cols) q (at2 ors ocs) -> room R m (ix2 rows cols) r (at2 rrs rcs) ->
  exists m1 m2, dft2_out_of_place R t (- e) p irs ics q ors ocs rows cols m = Some m1 /\ dft2_out_of_place R t e q ors ocs r rrs rcs rows cols m1 = Some m2 /\
    holds R m2 (ix2 rows cols) r (at2 rrs rcs) (fun i => nat_r R rows * nat_r R cols * x i)%cr.
Proof. exact C51_two_dim_lemma. Qed.
Example C51_two_dim_ex : exact Zring ztrig 2 /\ exact Zring ztrig 4 /\
  outc [0; 1; 2; 3; 4; 5; 6; 7]%Z (m <- dft2_out_of_place Zring ztrig (-1) (Inter 0) 4 1 (Inter 8) 1 2 2 4
      (zmem [] ([(1, 0); (2, 0); (3, 0); (5, 0); (0, 1); (0, 0); (2, 0); (0, 0)] ++ repeat (9, 9) 8)%Z);;
    dft2_out_of_place Zring ztrig 1 (Inter 8) 1 2 (Inter 0) 4 1 2 4 m) =
  Some (map Some [(8, 0); (16, 0); (24, 0); (40, 0); (0, 8); (0, 0); (16, 0); (0, 0)]%Z).
Proof. split; [apply ztrig2|]. split; [apply ztrig4|]. vm_compute. reflexivity. Qed.
Print Assumptions C51_two_dim.

Theorem C51_two_dim_real_axis0 : forall (R : CRing) (t : trig R) p irs ics q ors ocs r rrs rcs rows cols x m,
  exact R t rows -> exact R t cols -> real_ptr p -> cpx_ptr q -> real_ptr r -> (forall r0, r0 < rows / 2 + 1 -> int_ok q (off r0 ors)) ->
  dist (ix2 (rows / 2 + 1) cols) q (at2 ors ocs) -> disj (ix2 rows cols) p (at2 irs ics) (ix2 (rows / 2 + 1) cols) q (at2 ors ocs) -> dist (ix2 rows cols) r (at2 rrs rcs) ->
  holds R m (ix2 rows cols) p (at2 irs ics) (fun i => ofR R (x i)) -> room R m (ix2 (rows / 2 + 1) cols) q (at2 ors ocs) -> room R m (ix2 rows cols) r (at2 rrs rcs) ->
  exists m1 m2, rdft2 R t 0 p irs ics q ors ocs rows cols m = Some m1 /\ crdft2 R t 0 q ors ocs r rrs rcs rows cols m1 = Some m2 /\
    holds R m2 (ix2 rows cols) r (at2 rrs rcs) (fun i => nat_r R rows * nat_r R cols * ofR R (x i))%cr.
Proof. exact C51_two_dim_real_axis0_lemma. Qed.
Example C51_two_dim_real_axis0_ex : exact Zring ztrig 2 /\ exact Zring ztrig 4 /\
  outr [0; 1; 2; 3; 4; 5; 6; 7]%Z (m <- rdft2 Zring ztrig 0 (Real 0) 2 1 (Inter 0) 2 1 4 2 (zmem [1; 2; 3; 4; 0; 6; 7; 1]%Z (repeat (9, 9)%Z 8));;
    crdft2 Zring ztrig 0 (Inter 0) 2 1 (Real 0) 2 1 4 2 m) = Some (map Some [8; 16; 24; 32; 0; 48; 56; 8]%Z).
Proof. split; [apply ztrig2|]. split; [apply ztrig4|]. vm_compute. reflexivity. Qed.
Print Assumptions C51_two_dim_real_axis0.

Theorem C51_two_dim_real_axis1 : forall (R : CRing) (t : trig R) p irs ics q ors ocs r rrs rcs rows cols x m,
  exact R t rows -> exact R t cols -> real_ptr p -> cpx_ptr q -> real_ptr r -> (forall c0, c0 < cols / 2 + 1 -> int_ok q (off c0 ocs)) ->
  dist (ix2 rows (cols / 2 + 1)) q (at2 ors ocs) -> disj (ix2 rows cols) p (at2 irs ics) (ix2 rows (cols / 2 + 1)) q (at2 ors ocs) -> dist (ix2 rows cols) r (at2 rrs rcs) ->
  holds R m (ix2 rows cols) p (at2 irs ics) (fun i => ofR R (x i)) -> room R m (ix2 rows (cols / 2 + 1)) q (at2 ors ocs) -> room R m (ix2 rows cols) r (at2 rrs rcs) ->
  exists m1 m2, rdft2 R t 1 p irs ics q ors ocs rows cols m = Some m1 /\ crdft2 R t 1 q ors ocs r rrs rcs rows cols m1 = Some m2 /\
    holds R m2 (ix2 rows cols) r (at2 rrs rcs) (fun i => nat_r R rows * nat_r R cols * ofR R (x i))%cr.
Proof. exact C51_two_dim_real_axis1_lemma. Qed.
Example C51_two_dim_real_axis1_ex : exact Zring ztrig 2 /\ exact Zring ztrig 4 /\
  outr [0; 1; 2; 3; 4; 5; 6; 7]%Z (m <- rdft2 Zring ztrig 1 (Real 0) 4 1 (Inter 0) 3 1 2 4 (zmem [1; 2; 3; 4; 0; 6; 7; 1]%Z (repeat (9, 9)%Z 8));;
    crdft2 Zring ztrig 1 (Inter 0) 3 1 (Real 0) 4 1 2 4 m) = Some (map Some [8; 16; 24; 32; 0; 48; 56; 8]%Z).
Proof. split; [apply ztrig2|]. split; [apply ztrig4|]. vm_compute. reflexivity. Qed.
Print Assumptions C51_two_dim_real_axis1.

Theorem C51_three_dim : forall (R : CRing) (t : trig R) e p ixs iys izs q oxs oys ozs r rxs rys rzs nx ny nz X m,
  (e = 1 \/ e = -1)%Z -> exact R t nx -> exact R t ny -> exact R t nz -> cpx_ptr p -> cpx_ptr q -> cpx_ptr r ->
  (forall x, x < nx -> int_ok p (off x ixs) /\ int_ok q (off x oxs) /\ int_ok r (off x rxs)) ->
  (forall y z, y < ny -> z < nz -> int_ok q (off y oys + off z ozs) /\ int_ok r (off y rys + off z rzs)) ->
  dist (ix3 nx ny nz) q (at3 oxs oys ozs) -> disj (ix3 nx ny nz) p (at3 ixs iys izs) (ix3 nx ny nz) q (at3 oxs oys ozs) ->
  dist (ix3 nx ny nz) r (at3 rxs rys rzs) -> disj (ix3 nx ny nz) q (at3 oxs oys ozs) (ix3 nx ny nz) r (at3 rxs rys rzs) ->
  holds R m (ix3 nx ny nz) p (at3 ixs iys izs) X -> room R m (ix3 nx ny nz) q (at3 oxs oys ozs) -> room R m (ix3 nx ny nz) r (at3 rxs rys rzs) ->
  exists m1 m2, dft3_out_of_place R t (- e) p ixs iys izs q oxs oys ozs nx ny nz m = Some m1 /\ dft3_out_of_place R t e q oxs oys ozs r rxs rys rzs nx ny nz m1 = Some m2 /\
    holds R m2 (ix3 nx ny nz) r (at3 rxs rys rzs) (fun i => nat_r R nx * nat_r R ny * nat_r R nz * X i)%cr.
Proof. exact C51_three_dim_lemma. Qed.
Example C51_three_dim_ex : exact Zring ztrig 2 /\
  outc [0; 1; 2; 3; 4; 5; 6; 7]%Z (m <- dft3_out_of_place Zring ztrig (-1) (Inter 0) 4 2 1 (Inter 8) 4 2 1 2 2 2
      (zmem [] ([(1, 0); (0, 0); (2, 1); (0, 0); (3, 0); (5, 0); (0, 0); (0, 0)] ++ repeat (9, 9) 8)%Z);;
    dft3_out_of_place Zring ztrig 1 (Inter 8) 4 2 1 (Inter 0) 4 2 1 2 2 2 m) =
  Some (map Some [(8, 0); (0, 0); (16, 8); (0, 0); (24, 0); (40, 0); (0, 0); (0, 0)]%Z).
Proof. split; [apply ztrig2|]. vm_compute. reflexivity. Qed.
Print Assumptions C51_three_dim.

Theorem C51_three_dim_real_axis0 : forall (R : CRing) (t : trig R) p ixs iys izs q oxs oys ozs r rxs rys rzs nx ny nz X m,
  exact R t nx -> exact R t ny -> exact R t nz -> real_ptr p -> cpx_ptr q -> real_ptr r ->
  (forall x, x < nx / 2 + 1 -> int_ok q (off x oxs)) -> (forall y z, y < ny -> z < nz -> int_ok q (off y oys + off z ozs)) ->
  dist (ix3 (nx / 2 + 1) ny nz) q (at3 oxs oys ozs) -> disj (ix3 nx ny nz) p (at3 ixs iys izs) (ix3 (nx / 2 + 1) ny nz) q (at3 oxs oys ozs) -> dist (ix3 nx ny nz) r (at3 rxs rys rzs) ->
  holds R m (ix3 nx ny nz) p (at3 ixs iys izs) (fun i => ofR R (X i)) -> room R m (ix3 (nx / 2 + 1) ny nz) q (at3 oxs oys ozs) -> room R m (ix3 nx ny nz) r (at3 rxs rys rzs) ->
  exists m1 m2, rdft3 R t 0 p ixs iys izs q oxs oys ozs nx ny nz m = Some m1 /\ crdft3 R t 0 q oxs oys ozs r rxs rys rzs nx ny nz m1 = Some m2 /\
    holds R m2 (ix3 nx ny nz) r (at3 rxs rys rzs) (fun i => nat_r R nx * nat_r R ny * nat_r R nz * ofR R (X i))%cr.
Proof. exact C51_three_dim_real_axis0_lemma. Qed.
Example C51_three_dim_real_axis0_ex :
  outr [0; 1; 2; 3; 4; 5; 6; 7]%Z (m <- rdft3 Zring ztrig 0 (Real 0) 2 1 8 (Inter 0) 2 1 6 4 2 1 (zmem [1; 2; 3; 4; 0; 6; 7; 1]%Z (repeat (9, 9)%Z 8));;
    crdft3 Zring ztrig 0 (Inter 0) 2 1 6 (Real 0) 2 1 8 4 2 1 m) = Some (map Some [8; 16; 24; 32; 0; 48; 56; 8]%Z).
Proof. vm_compute. reflexivity. Qed.
Print Assumptions C51_three_dim_real_axis0.

Theorem C51_three_dim_real_axis1 : forall (R : CRing) (t : trig R) p ixs iys izs q oxs oys ozs r rxs rys rzs nx ny nz X m,
  exact R t nx -> exact R t ny -> exact R t nz -> real_ptr p -> cpx_ptr q -> real_ptr r ->
  (forall y, y < ny / 2 + 1 -> int_ok q (off y oys)) -> (forall x z, x < nx -> z < nz -> int_ok q (off x oxs + off z ozs)) ->
  dist (ix3 nx (ny / 2 + 1) nz) q (at3 oxs oys ozs) -> disj (ix3 nx ny nz) p (at3 ixs iys izs) (ix3 nx (ny / 2 + 1) nz) q (at3 oxs oys ozs) -> dist (ix3 nx ny nz) r (at3 rxs rys rzs) ->
  holds R m (ix3 nx ny nz) p (at3 ixs iys izs) (fun i => ofR R (X i)) -> room R m (ix3 nx (ny / 2 + 1) nz) q (at3 oxs oys ozs) -> room R m (ix3 nx ny nz) r (at3 rxs rys rzs) ->
  exists m1 m2, rdft3 R t 1 p ixs iys izs q oxs oys ozs nx ny nz m = Some m1 /\ crdft3 R t 1 q oxs oys ozs r rxs rys rzs nx ny nz m1 = Some m2 /\
    holds R m2 (ix3 nx ny nz) r (at3 rxs rys rzs) (fun i => nat_r R nx * nat_r R ny * nat_r R nz * ofR R (X i))%cr.
Proof. exact C51_three_dim_real_axis1_lemma. Qed.
Example C51_three_dim_real_axis1_ex :
  outr [0; 1; 2; 3; 4; 5; 6; 7]%Z (m <- rdft3 Zring ztrig 1 (Real 0) 8 2 1 (Inter 0) 6 2 1 1 4 2 (zmem [1; 2; 3; 4; 0; 6; 7; 1]%Z (repeat (9, 9)%Z 8));;
    crdft3 Zring ztrig 1 (Inter 0) 6 2 1 (Real 0) 8 2 1 1 4 2 m) = Some (map Some [8; 16; 24; 32; 0; 48; 56; 8]%Z).
Proof. vm_compute. reflexivity. Qed.
Print Assumptions C51_three_dim_real_axis1.

Theorem C51_three_dim_real_axis2 : forall (R : CRing) (t : trig R) p ixs iys izs q oxs oys ozs r rxs rys rzs nx ny nz X m,
  exact R t nx -> exact R t ny -> exact R t nz -> real_ptr p -> cpx_ptr q -> real_ptr r ->
  (forall z, z < nz / 2 + 1 -> int_ok q (off z ozs)) -> (forall x y, x < nx -> y < ny -> int_ok q (off x oxs + off y oys)) ->
  dist (ix3 nx ny (nz / 2 + 1)) q (at3 oxs oys ozs) -> disj (ix3 nx ny nz) p (at3 ixs iys izs) (ix3 nx ny (nz / 2 + 1)) q (at3 oxs oys ozs) -> dist (ix3 nx ny nz) r (at3 rxs rys rzs) ->
  holds R m (ix3 nx ny nz) p (at3 ixs iys izs) (fun i => ofR R (X i)) -> room R m (ix3 nx ny (nz / 2 + 1)) q (at3 oxs oys ozs) -> room R m (ix3 nx ny nz) r (at3 rxs rys rzs) ->
  exists m1 m2, rdft3 R t 2 p ixs iys izs q oxs oys ozs nx ny nz m = Some m1 /\ crdft3 R t 2 q oxs oys ozs r rxs rys rzs nx ny nz m1 = Some m2 /\
    holds R m2 (ix3 nx ny nz) r (at3 rxs rys rzs) (fun i => nat_r R nx * nat_r R ny * nat_r R nz * ofR R (X i))%cr.
Proof. exact C51_three_dim_real_axis2_lemma. Qed.
Example C51_three_dim_real_axis2_ex :
  outr [0; 1; 2; 3; 4; 5; 6; 7]%Z (m <- rdft3 Zring ztrig 2 (Real 0) 8 4 1 (Inter 0) 6 3 1 1 2 4 (zmem [1; 2; 3; 4; 0; 6; 7; 1]%Z (repeat (9, 9)%Z 8));;
    crdft3 Zring ztrig 2 (Inter 0) 6 3 1 (Real 0) 8 4 1 1 2 4 m) = Some (map Some [8; 16; 24; 32; 0; 48; 56; 8]%Z).
Proof. vm_compute. reflexivity. Qed.
Print Assumptions C51_three_dim_real_axis2.

Theorem C52_rows : forall (R : CRing) (t : trig R) e p irs ics q ors ocs rows cols x,
  cpx_ptr p -> cpx_ptr q -> dist (ix2 rows cols) q (at2 ors ocs) -> disj (ix2 rows cols) p (at2 irs ics) (ix2 rows cols) q (at2 ors ocs) ->
  computes R (dftm_out_of_place R t 0 e p irs ics q ors ocs rows cols) (ix2 rows cols) p (at2 irs ics) x (ix2 rows cols) q (at2 ors ocs)
    (fun rc => DFT R t e cols (fun c => x (fst rc, c)) (snd rc)).
Proof. exact C52_rows_lemma. Qed.
Example C52_rows_ex :
  dist (ix2 2 4) (Inter 8) (at2 4 1) /\ disj (ix2 2 4) (Inter 0) (at2 4 1) (ix2 2 4) (Inter 8) (at2 4 1) /\
  outc [8; 9; 10; 11; 12; 13; 14; 15]%Z (dftm_out_of_place Zring ztrig 0 (-1) (Inter 0) 4 1 (Inter 8) 4 1 2 4
    (zmem [] ([(1, 0); (2, 0); (3, 0); (5, 0); (0, 1); (0, 0); (2, 0); (0, 0)] ++ repeat (9, 9) 8)%Z)) =
  Some (map Some [(11, 0); (-2, 3); (-3, 0); (-2, -3); (2, 1); (-2, 1); (2, 1); (-2, 1)]%Z).
Proof. split; [lays|]. split; [lays|]. vm_compute. reflexivity. Qed.
Print Assumptions C52_rows.

Theorem C52_rows_in_place : forall (R : CRing) (t : trig R) e q rs cstr rows cols x,
  cpx_ptr q -> dist (ix2 rows cols) q (at2 rs cstr) ->
  computes R (dftm_in_place R t 0 e q rs cstr rows cols) (ix2 rows cols) q (at2 rs cstr) x (ix2 rows cols) q (at2 rs cstr)
    (fun rc => DFT R t e cols (fun c => x (fst rc, c)) (snd rc)).
Proof. exact C52_rows_in_place_lemma. Qed.
Example C52_rows_in_place_ex :
  dist (ix2 2 2) (Inter 0) (at2 2 1) /\
  outc [0; 1; 2; 3]%Z (dftm_in_place Zring ztrig 0 (-1) (Inter 0) 2 1 2 2 (zmem [] [(1, 0); (2, 1); (3, 0); (7, 0)]%Z)) =
  Some (map Some [(3, 1); (-1, -1); (10, 0); (-4, 0)]%Z).
Proof. split; [lays|]. vm_compute. reflexivity. Qed.
Print Assumptions C52_rows_in_place.

Theorem C52_rows_real_to_complex : forall (R : CRing) (t : trig R) p irs ics q ors ocs rows cols x,
  real_ptr p -> cpx_ptr q -> (forall r, r < rows -> int_ok q (off r ors)) -> dist (ix2 rows (cols / 2 + 1)) q (at2 ors ocs) -> disj (ix2 rows cols) p (at2 irs ics) (ix2 rows (cols / 2 + 1)) q (at2 ors ocs) ->
  computes R (rdftm R t 0 p irs ics q ors ocs rows cols) (ix2 rows cols) p (at2 irs ics) x (ix2 rows (cols / 2 + 1)) q (at2 ors ocs)
    (fun rc => DFT R t (-1) cols (fun c => x (fst rc, c)) (snd rc)).
Proof. exact C52_rows_real_to_complex_lemma. Qed.
Example C52_rows_real_to_complex_ex :
  dist (ix2 2 (4 / 2 + 1)) (Inter 0) (at2 3 1) /\
  outc [0; 1; 2; 3; 4; 5; 6]%Z (rdftm Zring ztrig 0 (Real 0) 4 1 (Inter 0) 3 1 2 4 (zmem [1; 2; 3; 4; 0; 6; 7; 1]%Z (repeat (9, 9)%Z 8))) =
  Some (map Some [(10, 0); (-2, 2); (-2, 0); (14, 0); (-7, -5); (0, 0); (9, 9)]%Z).
Proof. split; [lays|]. vm_compute. reflexivity. Qed.
Print Assumptions C52_rows_real_to_complex.

Theorem C52_rows_complex_to_real : forall (R : CRing) (t : trig R) p irs ics q ors ocs rows cols x,
  cpx_ptr p -> real_ptr q -> dist (ix2 rows cols) q (at2 ors ocs) -> disj (ix2 rows (cols / 2 + 1)) p (at2 irs ics) (ix2 rows cols) q (at2 ors ocs) ->
  computes R (crdftm R t 0 p irs ics q ors ocs rows cols) (ix2 rows (cols / 2 + 1)) p (at2 irs ics) x (ix2 rows cols) q (at2 ors ocs)
    (fun rc => ofR R (fst (DFT R t 1 cols (herm R cols (fun c => x (fst rc, c))) (snd rc)))).
Proof. exact C52_rows_complex_to_real_lemma. Qed.
Example C52_rows_complex_to_real_ex :
  dist (ix2 2 4) (Real 0) (at2 4 1) /\
  outr [0; 1; 2; 3; 4; 5; 6; 7]%Z (crdftm Zring ztrig 0 (Inter 0) 3 1 (Real 0) 4 1 2 4 (zmem (repeat 9%Z 8) [(10, 0); (-2, 2); (-2, 0); (14, 0); (-7, -5); (0, 0)]%Z)) =
  Some (map Some [4; 8; 12; 16; 0; 24; 28; 4]%Z).
Proof. split; [lays|]. vm_compute. reflexivity. Qed.
Print Assumptions C52_rows_complex_to_real.

Theorem C52_columns : forall (R : CRing) (t : trig R) e p irs ics q ors ocs rows cols x,
  cpx_ptr p -> cpx_ptr q -> dist (ix2 rows cols) q (at2 ors ocs) -> disj (ix2 rows cols) p (at2 irs ics) (ix2 rows cols) q (at2 ors ocs) ->
  computes R (dftm_out_of_place R t 1 e p irs ics q ors ocs rows cols) (ix2 rows cols) p (at2 irs ics) x (ix2 rows cols) q (at2 ors ocs)
    (fun rc => DFT R t e rows (fun r => x (r, snd rc)) (fst rc)).
Proof. exact C52_columns_lemma. Qed.
Example C52_columns_ex :
  outc [4; 5; 6; 7]%Z (dftm_out_of_place Zring ztrig 1 (-1) (Inter 0) 2 1 (Inter 4) 2 1 2 2 (zmem [] ([(1, 0); (2, 1); (3, 0); (7, 0)] ++ repeat (9, 9) 4)%Z)) =
  Some (map Some [(4, 0); (9, 1); (-2, 0); (-5, 1)]%Z).
Proof. vm_compute. reflexivity. Qed.
Print Assumptions C52_columns.

Theorem C52_columns_in_place : forall (R : CRing) (t : trig R) e q rs cstr rows cols x,
  cpx_ptr q -> dist (ix2 rows cols) q (at2 rs cstr) ->
  computes R (dftm_in_place R t 1 e q rs cstr rows cols) (ix2 rows cols) q (at2 rs cstr) x (ix2 rows cols) q (at2 rs cstr)
    (fun rc => DFT R t e rows (fun r => x (r, snd rc)) (fst rc)).
Proof. exact C52_columns_in_place_lemma. Qed.
Example C52_columns_in_place_ex :
  outc [0; 1; 2; 3]%Z (dftm_in_place Zring ztrig 1 (-1) (Inter 0) 2 1 2 2 (zmem [] [(1, 0); (2, 1); (3, 0); (7, 0)]%Z)) =
  Some (map Some [(4, 0); (9, 1); (-2, 0); (-5, 1)]%Z).
Proof. vm_compute. reflexivity. Qed.
Print Assumptions C52_columns_in_place.

Theorem C52_columns_real_to_complex : forall (R : CRing) (t : trig R) p irs ics q ors ocs rows cols x,
  real_ptr p -> cpx_ptr q -> (forall c, c < cols -> int_ok q (off c ocs)) -> dist (ix2 (rows / 2 + 1) cols) q (at2 ors ocs) -> disj (ix2 rows cols) p (at2 irs ics) (ix2 (rows / 2 + 1) cols) q (at2 ors ocs) ->
  computes R (rdftm R t 1 p irs ics q ors ocs rows cols) (ix2 rows cols) p (at2 irs ics) x (ix2 (rows / 2 + 1) cols) q (at2 ors ocs)
    (fun rc => DFT R t (-1) rows (fun r => x (r, snd rc)) (fst rc)).
Proof. exact C52_columns_real_to_complex_lemma. Qed.
Example C52_columns_real_to_complex_ex :
  outc [0; 1; 2; 3; 4; 5; 6]%Z (rdftm Zring ztrig 1 (Real 0) 2 1 (Inter 0) 2 1 4 2 (zmem [1; 2; 3; 4; 0; 6; 7; 1]%Z (repeat (9, 9)%Z 8))) =
  Some (map Some [(11, 0); (13, 0); (1, 4); (-4, -3); (-9, 0); (3, 0); (9, 9)]%Z).
Proof. vm_compute. reflexivity. Qed.
Print Assumptions C52_columns_real_to_complex.

Theorem C52_columns_complex_to_real : forall (R : CRing) (t : trig R) p irs ics q ors ocs rows cols x,
  cpx_ptr p -> real_ptr q -> dist (ix2 rows cols) q (at2 ors ocs) -> disj (ix2 (rows / 2 + 1) cols) p (at2 irs ics) (ix2 rows cols) q (at2 ors ocs) ->
  computes R (crdftm R t 1 p irs ics q ors ocs rows cols) (ix2 (rows / 2 + 1) cols) p (at2 irs ics) x (ix2 rows cols) q (at2 ors ocs)
    (fun rc => ofR R (fst (DFT R t 1 rows (herm R rows (fun r => x (r, snd rc))) (fst rc)))).
Proof. exact C52_columns_complex_to_real_lemma. Qed.
Example C52_columns_complex_to_real_ex :
  outr [0; 1; 2; 3; 4; 5; 6; 7]%Z (crdftm Zring ztrig 1 (Inter 0) 2 1 (Real 0) 2 1 4 2 (zmem (repeat 9%Z 8) [(11, 0); (13, 0); (1, 4); (-4, -3); (-9, 0); (3, 0)]%Z)) =
  Some (map Some [4; 8; 12; 16; 0; 24; 28; 4]%Z).
Proof. vm_compute. reflexivity. Qed.
Print Assumptions C52_columns_complex_to_real.

(** The row and column offsets of a multiple transform pass through int
    parameters (offset(data, int)): a matrix whose rows lie 2^31 or more
    elements apart is not transformed correctly. *)
Theorem C52_int_offset_refuted : exists p irs ics q ors ocs rows cols x,
  real_ptr p /\ cpx_ptr q /\ dist (ix2 rows (cols / 2 + 1)) q (at2 ors ocs) /\ disj (ix2 rows cols) p (at2 irs ics) (ix2 rows (cols / 2 + 1)) q (at2 ors ocs) /\
  ~ computes Zring (rdftm Zring ztrig 0 p irs ics q ors ocs rows cols) (ix2 rows cols) p (at2 irs ics) x (ix2 rows (cols / 2 + 1)) q (at2 ors ocs)
    (fun rc => DFT Zring ztrig (-1) cols (fun c => x (fst rc, c)) (snd rc)).
Proof. exact C52_int_offset_refuted_lemma. Qed.
Print Assumptions C52_int_offset_refuted.

Theorem C53_scaled_transform : forall (R : CRing) (t : trig R) e n ne1 sc i o x,
  (ne1 = false -> sc = 1%cr) -> vn i = n -> vn o = n ->
  cpx_ptr (vp i) -> cpx_ptr (vp o) -> dist (ix1 n) (vp o) (at1 (vs o)) -> disj (ix1 n) (vp i) (at1 (vs i)) (ix1 n) (vp o) (at1 (vs o)) ->
  computes R (fft1_by_reference R t C2C e n ne1 sc i o) (ix1 n) (vp i) (at1 (vs i)) x (ix1 n) (vp o) (at1 (vs o)) (fun w => DFT R t e n x w * ofR R sc)%cr.
Proof. exact C53_scaled_transform_lemma. Qed.
Example C53_scaled_transform_ex :
  outc [4; 5; 6; 7]%Z (fft1_by_reference Zring ztrig C2C (-1) 4 true 3%Z (Vw (Inter 0) 1 4) (Vw (Inter 4) 1 4) (zmem [] ([(1, 0); (2, 1); (0, 3); (4, 0)] ++ repeat (9, 9) 4)%Z)) =
  Some (map Some [(21, 12); (6, -3); (-15, 6); (0, -15)]%Z).
Proof. vm_compute. reflexivity. Qed.
Print Assumptions C53_scaled_transform.

Theorem C53_scaled_real_to_complex : forall (R : CRing) (t : trig R) e n ne1 sc i o x,
  (ne1 = false -> sc = 1%cr) -> vn i = n -> vn o = n / 2 + 1 ->
  real_ptr (vp i) -> cpx_ptr (vp o) -> dist (ix1 (n / 2 + 1)) (vp o) (at1 (vs o)) -> disj (ix1 n) (vp i) (at1 (vs i)) (ix1 (n / 2 + 1)) (vp o) (at1 (vs o)) ->
  computes R (fft1_by_reference R t R2C e n ne1 sc i o) (ix1 n) (vp i) (at1 (vs i)) x (ix1 (n / 2 + 1)) (vp o) (at1 (vs o)) (fun w => DFT R t (-1) n x w * ofR R sc)%cr.
Proof. exact C53_scaled_real_to_complex_lemma. Qed.
Example C53_scaled_real_to_complex_ex :
  outc [0; 1; 2]%Z (fft1_by_reference Zring ztrig R2C (-1) 4 true 2%Z (Vw (Real 0) 1 4) (Vw (Inter 0) 1 3) (zmem [1; 2; 3; 5] [(9, 9); (9, 9); (9, 9)])%Z) =
  Some (map Some [(22, 0); (-4, 6); (-6, 0)]%Z).
Proof. vm_compute. reflexivity. Qed.
Print Assumptions C53_scaled_real_to_complex.

Theorem C53_scaled_complex_to_real : forall (R : CRing) (t : trig R) e n ne1 sc i o x,
  (ne1 = false -> sc = 1%cr) -> vn i = n / 2 + 1 -> vn o = n ->
  cpx_ptr (vp i) -> real_ptr (vp o) -> dist (ix1 n) (vp o) (at1 (vs o)) -> disj (ix1 (n / 2 + 1)) (vp i) (at1 (vs i)) (ix1 n) (vp o) (at1 (vs o)) ->
  computes R (fft1_by_reference R t C2R e n ne1 sc i o) (ix1 (n / 2 + 1)) (vp i) (at1 (vs i)) x (ix1 n) (vp o) (at1 (vs o))
    (fun w => ofR R (fst (DFT R t 1 n (herm R n x) w)) * ofR R sc)%cr.
Proof. exact C53_scaled_complex_to_real_lemma. Qed.
Example C53_scaled_complex_to_real_ex :
  outr [0; 1; 2; 3]%Z (fft1_by_reference Zring ztrig C2R 1 4 true 2%Z (Vw (Inter 0) 1 3) (Vw (Real 0) 1 4) (zmem [9; 9; 9; 9] [(11, 0); (-2, 3); (-3, 0)])%Z) =
  Some (map Some [8; 16; 24; 40]%Z).
Proof. vm_compute. reflexivity. Qed.
Print Assumptions C53_scaled_complex_to_real.

Theorem C53_scaled_in_place : forall (R : CRing) (t : trig R) e n ne1 sc io x,
  (ne1 = false -> sc = 1%cr) -> vn io = n -> cpx_ptr (vp io) -> dist (ix1 n) (vp io) (at1 (vs io)) ->
  computes R (fft1_in_place R t e n ne1 sc io) (ix1 n) (vp io) (at1 (vs io)) x (ix1 n) (vp io) (at1 (vs io)) (fun w => DFT R t e n x w * ofR R sc)%cr.
Proof. exact C53_scaled_in_place_lemma. Qed.
Example C53_scaled_in_place_ex :
  outc [0; 1; 2; 3]%Z (fft1_in_place Zring ztrig (-1) 4 true 3%Z (Vw (Inter 0) 1 4) (zmem [] [(1, 0); (2, 1); (0, 3); (4, 0)]%Z)) =
  Some (map Some [(21, 12); (6, -3); (-15, 6); (0, -15)]%Z).
Proof. vm_compute. reflexivity. Qed.
Print Assumptions C53_scaled_in_place.

Theorem C53_wrong_size_rejected : forall (R : CRing) (t : trig R) k e n ne1 sc i o m,
  fft1_by_reference R t k e n ne1 sc i o m <> None ->
  vn i = match k with C2R => n / 2 + 1 | _ => n end /\ vn o = match k with R2C => n / 2 + 1 | _ => n end.
Proof. exact C53_wrong_size_rejected_lemma. Qed.
Example C53_wrong_size_rejected_ex :
  fft1_by_reference Zring ztrig R2C (-1) 4 true 2%Z (Vw (Real 0) 1 4) (Vw (Inter 0) 1 4) (zmem [1; 2; 3; 5]%Z (repeat (9, 9)%Z 4)) = None /\
  fft1_by_reference Zring ztrig R2C (-1) 4 true 2%Z (Vw (Real 0) 1 4) (Vw (Inter 0) 1 3) (zmem [1; 2; 3; 5]%Z (repeat (9, 9)%Z 4)) <> None.
Proof. vm_compute. split; [reflexivity|discriminate]. Qed.
Print Assumptions C53_wrong_size_rejected.

Theorem C53_round_trip : forall (R : CRing) (t : trig R) n nf sf ni si i o m x,
  exact R t n -> (nf = false -> sf = 1%cr) -> (ni = false -> si = 1%cr) -> (fst (nat_r R n) * (sf * si))%cr = 1%cr ->
  vn i = n -> vn o = n -> cpx_ptr (vp i) -> cpx_ptr (vp o) ->
  dist (ix1 n) (vp i) (at1 (vs i)) -> dist (ix1 n) (vp o) (at1 (vs o)) ->
  disj (ix1 n) (vp i) (at1 (vs i)) (ix1 n) (vp o) (at1 (vs o)) -> disj (ix1 n) (vp o) (at1 (vs o)) (ix1 n) (vp i) (at1 (vs i)) ->
  holds R m (ix1 n) (vp i) (at1 (vs i)) x -> room R m (ix1 n) (vp i) (at1 (vs i)) -> room R m (ix1 n) (vp o) (at1 (vs o)) ->
  exists m1 m2, fft1_by_reference R t C2C (-1) n nf sf i o m = Some m1 /\ fft1_by_reference R t C2C 1 n ni si o i m1 = Some m2 /\
    holds R m2 (ix1 n) (vp i) (at1 (vs i)) x.
Proof. exact C53_round_trip_lemma. Qed.
(** Length 1 is the only length whose scale factors are integers; C54 covers the real numbers. *)
Example C53_round_trip_ex : exact Zring ztrig 1 /\ (fst (nat_r Zring 1) * (((-1)%Z : Zring) * ((-1)%Z : Zring)))%cr = (1%cr : Zring) /\
  outc [0; 1]%Z (m <- fft1_by_reference Zring ztrig C2C (-1) 1 true (-1)%Z (Vw (Inter 0) 1 1) (Vw (Inter 1) 1 1) (zmem [] [(3, 4); (9, 9)]%Z);;
     fft1_by_reference Zring ztrig C2C 1 1 true (-1)%Z (Vw (Inter 1) 1 1) (Vw (Inter 0) 1 1) m) = Some (map Some [(3, 4); (-3, -4)]%Z).
Proof. split; [apply ztrig1|]. split; [reflexivity|]. vm_compute. reflexivity. Qed.
Print Assumptions C53_round_trip.

