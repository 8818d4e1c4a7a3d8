(** * Properties of promotion and the elementwise scalar functions *)

From Coq Require Import ZArith List Bool Lia Ring.
Require Import Verif.Base Verif.Scalar Verif.ScalarProofs.
Import ListNotations.
Local Open Scope Z_scope.

(** [fits t x]: the type [t] can represent the number [x]. *)

(** Sums, differences, products and bitwise combinations of any two integer
    types are the mathematical ones whenever the result type can represent
    them, whatever the intermediate conversions do.  (Operands of one
    type are the usual case: the result type is then that type.) *)
Theorem C61_arithmetic_exact :
  forall a b x y, fits a x -> fits b y ->
    (fits (ipromote a b) (x + y) -> iadd a b x y = Some (x + y)) /\
    (fits (ipromote a b) (x - y) -> isub a b x y = Some (x - y)) /\
    (fits (ipromote a b) (x * y) -> imul a b x y = Some (x * y)) /\
    (fits (ipromote a b) (Z.land x y) -> iband a b x y = Some (Z.land x y)) /\
    (fits (ipromote a b) (Z.lor x y) -> ibor a b x y = Some (Z.lor x y)) /\
    (fits (ipromote a b) (Z.lxor x y) -> ibxor a b x y = Some (Z.lxor x y)).
Proof.
  intros a b x y Fx Fy. repeat split; intros F; apply iop_exact; auto;
    [apply modular_add|apply modular_sub|apply modular_mul
    |apply modular_land|apply modular_lor|apply modular_lxor].
Qed.

Example C61_arithmetic_exact_example :
  (fits UChar 200 /\ fits UChar 55 /\ fits (ipromote UChar UChar) (200 + 55) /\
   iadd UChar UChar 200 55 = Some 255) /\
  (fits Short_ (-3) /\ fits Long_ 5000000000 /\ fits (ipromote Short_ Long_) (-3 * 5000000000) /\
   imul Short_ Long_ (-3) 5000000000 = Some (-15000000000)) /\
  (fits Int_ (-1) /\ fits UInt 5 /\ ipromote Int_ UInt = Int_ /\
   iadd Int_ UInt (-1) 5 = Some 4).
Proof. unfold fits. cbn. repeat split; try lia; reflexivity. Qed.

(** The result type of two operands of one type is that type, and the result
    type of every operation on two values of the types [bool], [short], [int] and
    [long] can represent the values of both. *)
Theorem C61_result_type :
  (forall a, ipromote a a = a) /\
  (forall a b, In a [Bool_; Short_; Int_; Long_] -> In b [Bool_; Short_; Int_; Long_] ->
     ipromote a b = ipromote b a /\
     (forall x, fits a x \/ fits b x -> fits (ipromote a b) x)).
Proof.
  split; [intros []; reflexivity|].
  intros a b Ha Hb. cbn in Ha, Hb.
  assert (W : within a (ipromote a b) && within b (ipromote a b) = true /\ ipromote a b = ipromote b a).
  { destruct Ha as [<-|[<-|[<-|[<-|[]]]]]; destruct Hb as [<-|[<-|[<-|[<-|[]]]]];
      split; vm_compute; reflexivity. }
  destruct W as [W E]. split; [exact E|]. apply andb_prop in W. destruct W as [W1 W2].
  intros x [F|F]; [exact (within_fits _ _ _ W1 F)|exact (within_fits _ _ _ W2 F)].
Qed.

(** The promotion of the types [bool], [short], [int], [long], [float] and
    [double] is their maximum in that order; of complex types it is complex;
    of [bool] and [char] it is [char]. *)
Definition order_of (t : ty) : Z :=
  match t with
  | TBool => 0 | TShort => 1 | TInt => 2 | TLong => 3 | TFloat => 4 | TDouble => 5 | _ => -1
  end.

Theorem C61_promotion_maximum :
  forall a b, 0 <= order_of a -> 0 <= order_of b ->
    order_of (promote a b) = Z.max (order_of a) (order_of b) /\
    promote_e (Cx a) (Re b) = Cx (promote a b) /\
    promote_e (Re a) (Cx b) = Cx (promote a b) /\
    promote_e (Cx a) (Cx b) = Cx (promote a b) /\
    promote TBool TChar = TChar /\ promote TChar TBool = TChar.
Proof.
  intros a b Ha Hb. repeat split.
  destruct a; cbn in Ha; try lia; destruct b; cbn in Hb; try lia; reflexivity.
Qed.

Example C61_promotion_maximum_example :
  0 <= order_of TLong /\ 0 <= order_of TFloat /\ promote TLong TFloat = TFloat /\
  promote_e (Cx TFloat) (Re TDouble) = Cx TDouble.
Proof. cbn. repeat split; lia. Qed.

(** Quotients are truncated towards zero, provided both operands are
    nonnegative or the types are such that no operand is read as unsigned. *)
Theorem C61_division :
  forall a b x y, fits a x -> fits b y -> y <> 0 ->
    ((is_signed a = true /\ is_signed b = true) \/ (0 <= x /\ 0 <= y)) ->
    fits (ipromote a b) (Z.quot x y) ->
    idiv a b x y = Some (Z.quot x y).
Proof.
  intros a b x y Fx Fy Ny H F. apply idiv_exact; auto.
  destruct H as [[H1 H2]|H]; [left; apply common_signed; assumption|right; exact H].
Qed.

Example C61_division_example :
  fits Short_ (-7) /\ fits Short_ 2 /\ is_signed Short_ = true /\
  fits (ipromote Short_ Short_) (Z.quot (-7) 2) /\ idiv Short_ Short_ (-7) 2 = Some (-3).
Proof. unfold fits. cbn. repeat split; lia. Qed.

(** Division by zero, and the one quotient of two [int] values that no [int]
    can represent, have undefined behaviour. *)
Theorem C61_division_undefined :
  (forall a b x, idiv a b x 0 = None) /\
  idiv Int_ Int_ (-2147483648) (-1) = None.
Proof.
  split; [|vm_compute; reflexivity]. intros a b x. unfold idiv.
  replace (conv (common a b) 0 =? 0) with true by (destruct a, b; reflexivity). reflexivity.
Qed.

(** Comparisons agree with the order of the numbers, under the same proviso. *)
Theorem C61_comparisons :
  forall a b x y, fits a x -> fits b y ->
    ((is_signed a = true /\ is_signed b = true) \/ (0 <= x /\ 0 <= y)) ->
    (ieq a b x y = true <-> x = y) /\ (ine a b x y = true <-> x <> y) /\
    (ilt a b x y = true <-> x < y) /\ (ile a b x y = true <-> x <= y) /\
    (igt a b x y = true <-> x > y) /\ (ige a b x y = true <-> x >= y).
Proof.
  intros a b x y Fx Fy H.
  destruct (common_cmp a b x y Fx Fy) as [E1 E2].
  { destruct H as [[H1 H2]|H]; [left; apply common_signed; assumption|right; exact H]. }
  unfold ine, ieq, ilt, ile, igt, ige, icmp. rewrite E1, E2.
  rewrite negb_true_iff, Z.eqb_neq, Z.eqb_eq, Z.ltb_lt, Z.leb_le, Z.gtb_lt, Z.geb_le.
  repeat split; lia.
Qed.

Example C61_comparisons_example :
  fits Short_ (-7) /\ fits Long_ 2 /\ ilt Short_ Long_ (-7) 2 = true /\ ige Short_ Long_ (-7) 2 = false.
Proof. unfold fits. cbn. repeat split; lia. Qed.

(** The logical functions read any nonzero number as true. *)
Theorem C61_logical :
  forall x y,
    (iland x y = true <-> x <> 0 /\ y <> 0) /\
    (ilor x y = true <-> x <> 0 \/ y <> 0) /\
    (ilxor x y = true <-> (x <> 0 /\ y = 0) \/ (x = 0 /\ y <> 0)) /\
    (ilnot x = true <-> x = 0).
Proof.
  intros x y. unfold iland, ilor, ilxor, ilnot, truth.
  destruct (Z.eqb_spec x 0) as [Ex|Ex], (Z.eqb_spec y 0) as [Ey|Ey]; cbn;
    repeat split; intros; try discriminate; try lia; auto.
Qed.

(** The complement flips every bit of the type and is its own inverse. *)
Theorem C61_complement :
  forall t x, fits t x -> t <> Bool_ ->
    exists r, ibnot t x = Some r /\ fits t r /\ ibnot t r = Some x /\
      forall k, 0 <= k < width t -> Z.testbit r k = negb (Z.testbit x k).
Proof.
  intros t x F N. destruct (is_signed t) eqn:S.
  - exists (- x - 1). split; [apply ibnot_signed; auto|].
    assert (F' : fits t (- x - 1)) by (unfold fits, lo, hi in *; rewrite S in *; lia).
    split; [exact F'|]. split.
    + rewrite ibnot_signed by auto. f_equal. lia.
    + intros k Hk. replace (- x - 1) with (Z.lnot x) by (unfold Z.lnot; lia).
      apply Z.lnot_spec. lia.
  - exists (hi t - x). split; [apply ibnot_unsigned; auto|].
    assert (F' : fits t (hi t - x)) by (unfold fits, lo, hi in *; rewrite S in *; lia).
    split; [exact F'|]. split.
    + rewrite ibnot_unsigned by auto. f_equal. lia.
    + intros k Hk. assert (M : (hi t - x) mod 2 ^ width t = Z.lnot x mod 2 ^ width t).
      { unfold hi. rewrite S. pose proof (pow_pos (width t) ltac:(lia)).
        rewrite <- (Z.mod_add (Z.lnot x) 1) by lia. f_equal. unfold Z.lnot. lia. }
      rewrite <- (Z.mod_pow2_bits_low (hi t - x) (width t) k) by lia. rewrite M.
      rewrite Z.mod_pow2_bits_low by lia. apply Z.lnot_spec. lia.
Qed.

Example C61_complement_example :
  fits UShort 10 /\ UShort <> Bool_ /\ ibnot UShort 10 = Some 65525 /\ ibnot UShort 65525 = Some 10 /\
  ibnot Short_ 10 = Some (-11).
Proof. unfold fits. cbn. repeat split; lia || discriminate. Qed.

(** Negation, magnitude, square, and the larger and smaller of two magnitudes
    or squares are exact whenever the type can represent them. *)
Theorem C61_magnitudes :
  forall t x y, fits t x -> fits t y ->
    (fits t (- x) -> ineg t x = Some (- x)) /\
    (fits t (Z.abs x) -> imag_ t x = Some (Z.abs x)) /\
    (fits t (x * x) -> isq t x = Some (x * x)) /\
    (fits t (Z.abs x) -> fits t (Z.abs y) ->
       imaxmg t x y = Some (Z.max (Z.abs x) (Z.abs y)) /\
       iminmg t x y = Some (Z.min (Z.abs x) (Z.abs y))) /\
    (fits t (x * x) -> fits t (y * y) ->
       imaxmgsq t x y = Some (Z.max (x * x) (y * y)) /\
       iminmgsq t x y = Some (Z.min (x * x) (y * y))).
Proof.
  intros t x y _ _. split; [apply ineg_exact|]. split; [apply imag_exact|]. split; [apply isq_exact|].
  split; intros F G.
  - unfold imaxmg, iminmg. rewrite !imag_exact by assumption. cbn [bind].
    rewrite impl_max_ok, impl_min_ok. split; reflexivity.
  - unfold imaxmgsq, iminmgsq. rewrite !isq_exact by assumption. cbn [bind].
    rewrite impl_max_ok, impl_min_ok. split; reflexivity.
Qed.

Example C61_magnitudes_example :
  fits Int_ (-70000) /\ fits Int_ 3 /\ fits Int_ (Z.abs (-70000)) /\
  imaxmg Int_ (-70000) 3 = Some 70000 /\ iminmgsq Int_ (-7) 5 = Some 25 /\ isq Short_ (-181) = Some 32761.
Proof. unfold fits. cbn. repeat split; lia. Qed.

(** The fused functions: [am] is [(x+y)*z], [ma] is [x*y+z], [msb] is [x*y-z] and
    [sbm] is [(x-y)*z], whenever the common type of the first two operands can
    represent the intermediate result and the result type the final one. *)
Theorem C61_fused :
  forall a b d x y z, fits a x -> fits b y -> fits d z ->
    let result := ipromote (ipromote a b) d in
    (fits (common a b) (x + y) -> fits result ((x + y) * z) -> iam a b d x y z = Some ((x + y) * z)) /\
    (fits (common a b) (x * y) -> fits result (x * y + z) -> ima a b d x y z = Some (x * y + z)) /\
    (fits (common a b) (x * y) -> fits result (x * y - z) -> imsb a b d x y z = Some (x * y - z)) /\
    (fits (common a b) (x - y) -> fits result ((x - y) * z) -> isbm a b d x y z = Some ((x - y) * z)).
Proof.
  intros a b d x y z Fx Fy Fz result. unfold iam, ima, imsb, isbm.
  split; [|split; [|split]]; intros Fi F.
  - apply (iop3_exact Z.add Z.mul); auto; [apply modular_add|apply modular_mul].
  - apply (iop3_exact Z.mul Z.add); auto; [apply modular_mul|apply modular_add].
  - apply (iop3_exact Z.mul Z.sub); auto; [apply modular_mul|apply modular_sub].
  - apply (iop3_exact Z.sub Z.mul); auto; [apply modular_sub|apply modular_mul].
Qed.

(** The intermediate result may exceed the operands' own type. *)
Example C61_fused_example :
  fits Short_ 300 /\ fits Short_ (-32000) /\ fits (common Short_ Short_) (300 * 300) /\
  fits (ipromote (ipromote Short_ Short_) Long_) (300 * 300 + -32000) /\
  ima Short_ Short_ Long_ 300 300 (-32000) = Some 58000 /\
  isbm Short_ Short_ Short_ 30000 (-20000) 0 = Some 0.
Proof. unfold fits. cbn. repeat split; lia. Qed.

(** The squared magnitude of a complex number is its product with its conjugate,
    multiplicative, and undoes [jmul] up to that factor; [expoavg] is the
    convex combination.  For every commutative ring, hence for exact reals. *)
Theorem C61_complex_functions :
  forall (R : CRing) (z w : cx R) (a b c : R),
    cx_mul R z (cx_conj R z) = (cmagsq R z, r0) /\
    cmagsq R (cx_mul R z w) = (cmagsq R z * cmagsq R w)%cr /\
    cx_mul R (jmul R z w) w = cx_scale R (cmagsq R w) z /\
    expoavg R a b c = (c + a * (b - c))%cr.
Proof.
  intros R z w a b c. split; [apply cmagsq_norm|]. split; [apply cmagsq_mul|].
  split; [apply jmul_undo|apply expoavg_ok].
Qed.

Example C61_complex_functions_example :
  cmagsq Zring (3, 4) = 25 /\ jmul Zring (1, 2) (3, 4) = (11, 2) /\ expoavg Zring 3 10 4 = 22.
Proof. cbn. repeat split. Qed.

(** ** What fails *)

(** The promotion of types outside the table is the left one, so it depends on
    the order of the operands and can lose the larger operand: a [char] view
    plus an [int] view has elements of type [char], and 1 + 1000 is -23; the
    other way round it is 1001. *)
Theorem C61_promotion_order_refuted :
  exists a b x y, fits a x /\ fits b y /\
    ipromote a b <> ipromote b a /\
    fits Int_ (x + y) /\
    iadd a b x y = Some (-23) /\ iadd b a y x = Some (x + y).
Proof.
  exists Char_, Int_, 1, 1000. unfold fits. cbn.
  repeat split; try lia; try discriminate; reflexivity.
Qed.

(** An unsigned view times a floating-point view has unsigned elements, and a
    view of [bool] plus one of [unsigned] has [bool] elements. *)
Theorem C61_promotion_loses_kind_refuted :
  promote TUInt TDouble = TUInt /\ promote TDouble TUInt = TDouble /\
  promote TULong TFloat = TULong /\ promote TFloat TLDouble = TFloat /\
  promote TBool TUInt = TBool /\ iadd Bool_ UInt 1 41 = Some 1.
Proof. repeat split. Qed.

(** Signed and unsigned operands are compared as unsigned: the view comparison
    [lt] of -1 (an [int]) and 1 (an [unsigned]) is false. *)
Theorem C61_mixed_comparison_refuted :
  exists a b x y, fits a x /\ fits b y /\ x < y /\ ilt a b x y = false /\ igt a b x y = true.
Proof. exists Int_, UInt, (-1), 1. unfold fits. cbn. repeat split; lia. Qed.

(** The product of two [unsigned short] values is computed in [int] and can
    overflow, which is undefined, although unsigned arithmetic is supposed to
    wrap. *)
Theorem C61_unsigned_short_product_refuted :
  exists x y, fits UShort x /\ fits UShort y /\ imul UShort UShort x y = None /\
    isq UShort x = None.
Proof. exists 65535, 65535. unfold fits. cbn. repeat split; lia. Qed.

(** The magnitude of the least [short] is negative; of the least [int] it is
    undefined. *)
Theorem C61_least_magnitude_refuted :
  exists x, fits Short_ x /\ imag_ Short_ x = Some x /\ x < 0 /\
    imag_ Int_ (-2147483648) = None.
Proof. exists (-32768). unfold fits. cbn. repeat split; lia. Qed.

(** The complement of a [bool] is always true. *)
Theorem C61_bool_complement_refuted :
  ibnot Bool_ 0 = Some 1 /\ ibnot Bool_ 1 = Some 1.
Proof. split; reflexivity. Qed.

Print Assumptions C61_arithmetic_exact.
Print Assumptions C61_result_type.
Print Assumptions C61_promotion_maximum.
Print Assumptions C61_division.
Print Assumptions C61_division_undefined.
Print Assumptions C61_comparisons.
Print Assumptions C61_logical.
Print Assumptions C61_complement.
Print Assumptions C61_magnitudes.
Print Assumptions C61_fused.
Print Assumptions C61_complex_functions.
Print Assumptions C61_promotion_order_refuted.
Print Assumptions C61_promotion_loses_kind_refuted.
Print Assumptions C61_mixed_comparison_refuted.
Print Assumptions C61_unsigned_short_product_refuted.
Print Assumptions C61_least_magnitude_refuted.
Print Assumptions C61_bool_complement_refuted.
