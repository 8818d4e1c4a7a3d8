(** Model of the products by 3x3 and 4x4 matrices
    (src/vsip/impl/matvec_prod.hpp 314-384).  They evaluate like [prod]
    ([Matvec.prod_mm], [Matvec.prod_mv]); only the checks differ. *)
From Coq Require Import ZArith List Lia Bool Arith.
From Verif Require Import Base Fir Freqswap Conv Matvec.
Import ListNotations.
Local Open Scope nat_scope.

Section Prod34.
Context {K : CRing} (conj : K -> K).
Implicit Types m : mem K.

(** matvec_prod.hpp 314-329 and 351-366: r = prod3(a, b), r = prod4(a, b). *)
Definition prod3 (r a b : block2) (m : mem K) : option (mem K) :=
  assert (rows a =? 3) ;; assert (cols a =? 3) ;; assign_prod conj false r (plain2 a) (plain2 b) m.
Definition prod4 (r a b : block2) (m : mem K) : option (mem K) :=
  assert (rows a =? 4) ;; assert (cols a =? 4) ;; assign_prod conj false r (plain2 a) (plain2 b) m.
(** matvec_prod.hpp 332-348 and 369-384: the second operand is a vector.  The
    second check is the size check of the assignment. *)
Definition prod3_vec (r : block1) (a : block2) (b : block1) (m : mem K) : option (mem K) :=
  assert (rows a =? 3) ;; assert (cols a =? 3) ;; assert (len r =? rows a) ;; prod_mv r (plain2 a) (plain1 b) m.
Definition prod4_vec (r : block1) (a : block2) (b : block1) (m : mem K) : option (mem K) :=
  assert (rows a =? 4) ;; assert (cols a =? 4) ;; assert (len r =? rows a) ;; prod_mv r (plain2 a) (plain1 b) m.
End Prod34.
