(** * Proofs about promotion and the scalar functions *)

From Coq Require Import ZArith List Bool Lia Ring.
Require Import Verif.Base Verif.Scalar.
Import ListNotations.
Local Open Scope Z_scope.

(** ** Finite checks over the types *)

Definition itys : list ity :=
  [Bool_; Char_; SChar; UChar; Short_; UShort; Int_; UInt; Long_; ULong; LLong; ULLong].

Lemma itys_all t : In t itys.
Proof. destruct t; cbn; tauto. Qed.

Lemma all1 (f : ity -> bool) : forallb f itys = true -> forall a, f a = true.
Proof. intros H a. rewrite forallb_forall in H. apply H. apply itys_all. Qed.

Lemma all2 (f : ity -> ity -> bool) :
  forallb (fun a => forallb (f a) itys) itys = true -> forall a b, f a b = true.
Proof.
  intros H a. apply all1. revert a.
  apply (all1 (fun a => forallb (f a) itys)). exact H.
Qed.

Lemma all3 (f : ity -> ity -> ity -> bool) :
  forallb (fun a => forallb (fun b => forallb (f a b) itys) itys) itys = true ->
  forall a b c, f a b c = true.
Proof.
  intros H a b. apply all1. revert a b.
  apply (all2 (fun a b => forallb (f a b) itys)). exact H.
Qed.

(** [t]'s values are values of [u]. *)
Definition within (t u : ity) : bool := (lo u <=? lo t) && (hi t <=? hi u).

Lemma within_fits t u x : within t u = true -> fits t x -> fits u x.
Proof.
  unfold within, fits. rewrite andb_true_iff, !Z.leb_le. lia.
Qed.

(** In the common type, or wide enough for wrapping arithmetic. *)
Definition carrier (t c : ity) : bool :=
  if is_signed c then within t c else (width t <=? width c).

Lemma pow_pos k : 0 <= k -> 0 < 2 ^ k.
Proof. intros. apply Z.pow_pos_nonneg; lia. Qed.

Lemma width_pos t : 1 <= width t.
Proof. destruct t; cbn; lia. Qed.

Lemma conv_mod t x : t <> Bool_ -> conv t x mod 2 ^ width t = x mod 2 ^ width t.
Proof.
  intros N. pose proof (width_pos t). pose proof (pow_pos (width t)).
  assert (E : conv t x = (let m := x mod 2 ^ width t in
    if is_signed t && (2 ^ (width t - 1) <=? m) then m - 2 ^ width t else m))
    by (destruct t; try reflexivity; contradiction).
  rewrite E. cbv zeta. destruct (is_signed t && _).
  - rewrite <- (Z.mod_add (x mod 2 ^ width t - 2 ^ width t) 1) by lia.
    replace (x mod 2 ^ width t - 2 ^ width t + 1 * 2 ^ width t) with (x mod 2 ^ width t) by ring.
    apply Z.mod_mod. lia.
  - apply Z.mod_mod. lia.
Qed.

Lemma conv_fits t x : fits t (conv t x).
Proof.
  destruct t; unfold fits, lo, hi; cbn [is_signed width].
  1: { cbn [conv]. destruct (x =? 0); cbn; lia. }
  all: unfold conv; cbn [is_signed width andb].
  all: match goal with |- context [?v mod 2 ^ ?w] =>
         pose proof (Z.mod_pos_bound v (2 ^ w) ltac:(reflexivity)) as B;
         set (m := v mod 2 ^ w) in * end.
  all: try (destruct (Z.leb_spec (2 ^ (8 - 1)) m)); try (destruct (Z.leb_spec (2 ^ (16 - 1)) m));
       try (destruct (Z.leb_spec (2 ^ (32 - 1)) m)); try (destruct (Z.leb_spec (2 ^ (64 - 1)) m)).
  all: change (2 ^ (8 - 1)) with 128 in *; change (2 ^ 8) with 256 in *;
       change (2 ^ (16 - 1)) with 32768 in *; change (2 ^ 16) with 65536 in *;
       change (2 ^ (32 - 1)) with 2147483648 in *; change (2 ^ 32) with 4294967296 in *;
       change (2 ^ (64 - 1)) with 9223372036854775808 in *; change (2 ^ 64) with 18446744073709551616 in *;
       lia.
Qed.

(** Two values of a type that agree modulo its size are equal. *)
Lemma fits_mod_eq t x y :
  fits t x -> fits t y -> x mod 2 ^ width t = y mod 2 ^ width t -> x = y.
Proof.
  intros Hx Hy E. pose proof (width_pos t) as W.
  assert (P : 2 ^ width t = 2 * 2 ^ (width t - 1)).
  { rewrite <- Z.pow_succ_r by lia. f_equal. lia. }
  pose proof (pow_pos (width t - 1) ltac:(lia)) as P1.
  assert (D : - 2 ^ width t < x - y < 2 ^ width t).
  { unfold fits, lo, hi in *. destruct (is_signed t); lia. }
  assert (M : (x - y) mod 2 ^ width t = 0).
  { rewrite Zminus_mod, E, Z.sub_diag. apply Z.mod_0_l. lia. }
  apply Z.mod_divide in M; [|lia]. destruct M as [k K].
  assert (k = 0); [|lia].
  assert (-1 < k < 1); [|lia]. split; apply (Z.mul_lt_mono_pos_r (2 ^ width t)); lia.
Qed.

Lemma conv_id t x : fits t x -> conv t x = x.
Proof.
  intros H. destruct t.
  1: { unfold fits, lo, hi in H. cbn in H. assert (C : x = 0 \/ x = 1) by lia.
       destruct C as [-> | ->]; reflexivity. }
  all: apply (fits_mod_eq _ _ _ (conv_fits _ _) H); apply conv_mod; discriminate.
Qed.

Lemma fitsb_fits t x : fitsb t x = true <-> fits t x.
Proof. unfold fitsb, fits. rewrite andb_true_iff, !Z.leb_le. tauto. Qed.

Lemma conv_mod_le t x w : 0 <= w <= width t -> t <> Bool_ -> conv t x mod 2 ^ w = x mod 2 ^ w.
Proof.
  intros Hw N. pose proof (conv_mod t x N) as E.
  assert (P : 2 ^ width t = 2 ^ (width t - w) * 2 ^ w).
  { rewrite <- Z.pow_add_r by lia. f_equal. lia. }
  pose proof (pow_pos w ltac:(lia)). pose proof (pow_pos (width t - w) ltac:(lia)).
  assert (G : forall z, (z mod 2 ^ width t) mod 2 ^ w = z mod 2 ^ w).
  { intros z. rewrite P. rewrite (Z.mul_comm (2 ^ (width t - w))). rewrite Z.rem_mul_r by lia.
    rewrite Z.mul_comm, Z.mod_add by lia. apply Z.mod_mod. lia. }
  rewrite <- (G (conv t x)), <- (G x), E. reflexivity.
Qed.

Lemma common_not_bool a b : common a b <> Bool_.
Proof. destruct a, b; discriminate. Qed.

(** ** Exact results *)

(** Reducing a result computed in the common type to the result type. *)
Lemma reduce_exact p c v :
  c <> Bool_ -> carrier p c = true -> fits p v ->
  exists r, arith c v = Some r /\ conv p r = v.
Proof.
  intros Nc C F. unfold arith, carrier in *. destruct (is_signed c) eqn:S.
  - pose proof (within_fits _ _ _ C F) as F'. rewrite (proj2 (fitsb_fits c v) F').
    exists v. split; [reflexivity|]. apply conv_id. exact F.
  - exists (conv c v). split; [reflexivity|].
    apply Z.leb_le in C. pose proof (width_pos p) as Wp.
    destruct p.
    + unfold fits, lo, hi in F. cbn in F.
      assert (Fc : fits c v).
      { unfold fits, lo, hi. rewrite S. split; [lia|].
        assert (2 ^ 1 <= 2 ^ width c) by (apply Z.pow_le_mono_r; cbn in C; lia).
        change (2 ^ 1) with 2 in *. lia. }
      rewrite (conv_id _ _ Fc). apply conv_id. unfold fits, lo, hi. cbn. lia.
    + apply (fits_mod_eq Char_); [apply conv_fits|exact F|]. rewrite conv_mod by discriminate. apply conv_mod_le; auto; cbn [width] in *; lia.
    + apply (fits_mod_eq SChar); [apply conv_fits|exact F|]. rewrite conv_mod by discriminate. apply conv_mod_le; auto; cbn [width] in *; lia.
    + apply (fits_mod_eq UChar); [apply conv_fits|exact F|]. rewrite conv_mod by discriminate. apply conv_mod_le; auto; cbn [width] in *; lia.
    + apply (fits_mod_eq Short_); [apply conv_fits|exact F|]. rewrite conv_mod by discriminate. apply conv_mod_le; auto; cbn [width] in *; lia.
    + apply (fits_mod_eq UShort); [apply conv_fits|exact F|]. rewrite conv_mod by discriminate. apply conv_mod_le; auto; cbn [width] in *; lia.
    + apply (fits_mod_eq Int_); [apply conv_fits|exact F|]. rewrite conv_mod by discriminate. apply conv_mod_le; auto; cbn [width] in *; lia.
    + apply (fits_mod_eq UInt); [apply conv_fits|exact F|]. rewrite conv_mod by discriminate. apply conv_mod_le; auto; cbn [width] in *; lia.
    + apply (fits_mod_eq Long_); [apply conv_fits|exact F|]. rewrite conv_mod by discriminate. apply conv_mod_le; auto; cbn [width] in *; lia.
    + apply (fits_mod_eq ULong); [apply conv_fits|exact F|]. rewrite conv_mod by discriminate. apply conv_mod_le; auto; cbn [width] in *; lia.
    + apply (fits_mod_eq LLong); [apply conv_fits|exact F|]. rewrite conv_mod by discriminate. apply conv_mod_le; auto; cbn [width] in *; lia.
    + apply (fits_mod_eq ULLong); [apply conv_fits|exact F|]. rewrite conv_mod by discriminate. apply conv_mod_le; auto; cbn [width] in *; lia.
Qed.

(** An operation that respects congruence modulo powers of two. *)
Definition modular (f : Z -> Z -> Z) : Prop :=
  forall k x y x' y', 0 <= k -> x mod 2 ^ k = x' mod 2 ^ k -> y mod 2 ^ k = y' mod 2 ^ k ->
    f x y mod 2 ^ k = f x' y' mod 2 ^ k.

Lemma modular_add : modular Z.add.
Proof. intros k x y x' y' Hk E1 E2. rewrite Zplus_mod, E1, E2, <- Zplus_mod. reflexivity. Qed.
Lemma modular_sub : modular Z.sub.
Proof. intros k x y x' y' Hk E1 E2. rewrite Zminus_mod, E1, E2, <- Zminus_mod. reflexivity. Qed.
Lemma modular_mul : modular Z.mul.
Proof. intros k x y x' y' Hk E1 E2. rewrite Zmult_mod, E1, E2, <- Zmult_mod. reflexivity. Qed.

Lemma modular_bits (f : Z -> Z -> Z) (g : bool -> bool -> bool) :
  (forall x y n, 0 <= n -> Z.testbit (f x y) n = g (Z.testbit x n) (Z.testbit y n)) -> modular f.
Proof.
  intros H k x y x' y' Hk E1 E2. apply Z.bits_inj'. intros n Hn.
  destruct (Z_lt_le_dec n k) as [L|L].
  - rewrite !Z.mod_pow2_bits_low by lia. rewrite !H by lia.
    rewrite <- (Z.mod_pow2_bits_low x k n), <- (Z.mod_pow2_bits_low y k n) by lia.
    rewrite E1, E2. rewrite !Z.mod_pow2_bits_low by lia. reflexivity.
  - rewrite !Z.mod_pow2_bits_high by lia. reflexivity.
Qed.

Lemma modular_land : modular Z.land.
Proof. apply (modular_bits _ andb). intros. apply Z.land_spec. Qed.
Lemma modular_lor : modular Z.lor.
Proof. apply (modular_bits _ orb). intros. apply Z.lor_spec. Qed.
Lemma modular_lxor : modular Z.lxor.
Proof. apply (modular_bits _ xorb). intros. apply Z.lxor_spec. Qed.

(** Computing in the common type. *)
Lemma arith_common f c p u v :
  modular f -> c <> Bool_ -> carrier p c = true ->
  (is_signed c = true -> fits c u /\ fits c v) ->
  fits p (f u v) ->
  exists r, arith c (f (conv c u) (conv c v)) = Some r /\ conv p r = f u v.
Proof.
  intros M Nc C S F. destruct (reduce_exact p c (f u v) Nc C F) as (r & A & E).
  exists r. split; [|exact E]. rewrite <- A. unfold arith in *.
  destruct (is_signed c) eqn:Sc.
  - destruct (S eq_refl) as [S1 S2]. rewrite (conv_id _ _ S1), (conv_id _ _ S2). reflexivity.
  - f_equal. apply (fits_mod_eq c); try apply conv_fits. rewrite !conv_mod by exact Nc.
    pose proof (width_pos c). apply M; [lia|apply conv_mod; exact Nc|apply conv_mod; exact Nc].
Qed.

Lemma common_operands : forall a b,
  carrier (ipromote a b) (common a b) = true /\
  (is_signed (common a b) = true -> within a (common a b) = true /\ within b (common a b) = true).
Proof.
  intros a b.
  assert (H : (carrier (ipromote a b) (common a b) &&
    (negb (is_signed (common a b)) || (within a (common a b) && within b (common a b)))) = true).
  { revert a b. apply (all2 (fun a b => carrier (ipromote a b) (common a b) &&
      (negb (is_signed (common a b)) || (within a (common a b) && within b (common a b))))).
    vm_compute. reflexivity. }
  apply andb_prop in H. destruct H as [H1 H2]. split; [exact H1|]. intros S. rewrite S in H2.
  cbn [negb orb] in H2. apply andb_prop in H2. exact H2.
Qed.

Lemma iop_exact f a b x y :
  modular f -> fits a x -> fits b y -> fits (ipromote a b) (f x y) ->
  iop f a b x y = Some (f x y).
Proof.
  intros M Fx Fy F. unfold iop. destruct (common_operands a b) as [C S].
  destruct (arith_common f (common a b) (ipromote a b) x y M (common_not_bool a b) C) as (r & A & E).
  - intros Sg. destruct (S Sg) as [S1 S2]. split; [eapply (within_fits _ _ _ S1)|eapply (within_fits _ _ _ S2)]; assumption.
  - exact F.
  - rewrite A. cbn [bind]. rewrite E. reflexivity.
Qed.

Lemma lift_facts t : lift t <> Bool_ /\ carrier t (lift t) = true /\
  (is_signed (lift t) = true -> within t (lift t) = true).
Proof. destruct t; vm_compute; repeat split; auto; discriminate. Qed.

Lemma unary_exact t x : fits t x -> exists r, arith (lift t) x = Some r /\ conv t r = x.
Proof.
  intros F. destruct (lift_facts t) as (N & C & _). apply reduce_exact; auto.
Qed.

Lemma common_cmp a b x y :
  fits a x -> fits b y ->
  (is_signed (common a b) = true \/ (0 <= x /\ 0 <= y)) ->
  conv (common a b) x = x /\ conv (common a b) y = y.
Proof.
  intros Fx Fy H. destruct (common_operands a b) as [_ S].
  destruct (is_signed (common a b)) eqn:Sg.
  - destruct (S eq_refl) as [S1 S2]. split; apply conv_id; [eapply (within_fits _ _ _ S1)|eapply (within_fits _ _ _ S2)]; assumption.
  - destruct H as [H|[H1 H2]]; [discriminate H|].
    assert (G : (hi a <=? hi (common a b)) && (hi b <=? hi (common a b)) = true).
    { revert a b x y Fx Fy S Sg H1 H2. intros a b _ _ _ _ _ _ _ _. revert a b.
      apply (all2 (fun a b => (hi a <=? hi (common a b)) && (hi b <=? hi (common a b)))).
      vm_compute. reflexivity. }
    apply andb_prop in G. destruct G as [G1 G2]. apply Z.leb_le in G1, G2.
    assert (L : lo (common a b) = 0) by (unfold lo; rewrite Sg; reflexivity).
    unfold fits in *. split; apply conv_id; unfold fits; rewrite L; lia.
Qed.

(** Signed operand types have a signed common type. *)
Lemma common_signed a b :
  is_signed a = true -> is_signed b = true -> is_signed (common a b) = true.
Proof. destruct a, b; intros H1 H2; try discriminate; reflexivity. Qed.

(** Three operands. *)
Lemma common_operands3 : forall a b d,
  carrier (ipromote (ipromote a b) d) (common (common a b) d) = true.
Proof.
  apply (all3 (fun a b d => carrier (ipromote (ipromote a b) d) (common (common a b) d))).
  vm_compute. reflexivity.
Qed.

Lemma iop3_exact f g a b d x y z :
  modular f -> modular g ->
  fits a x -> fits b y -> fits d z ->
  fits (common a b) (f x y) ->
  fits (ipromote (ipromote a b) d) (g (f x y) z) ->
  iop3 f g a b d x y z = Some (g (f x y) z).
Proof.
  intros Mf Mg Fx Fy Fz Fi F. unfold iop3.
  destruct (common_operands a b) as [_ S].
  destruct (arith_common f (common a b) (common a b) x y Mf (common_not_bool a b)) as (r & A & E).
  - unfold carrier, within. destruct (is_signed (common a b)); [|apply Z.leb_refl].
    rewrite !Z.leb_refl. reflexivity.
  - intros Sg. destruct (S Sg) as [S1 S2]. split; [eapply (within_fits _ _ _ S1)|eapply (within_fits _ _ _ S2)]; assumption.
  - exact Fi.
  - rewrite A. cbn [bind].
    assert (R : r = f x y).
    { rewrite <- E. symmetry. apply conv_id. unfold arith in A. destruct (is_signed (common a b)).
      - destruct (fitsb _ _) eqn:Q; [|discriminate A]. injection A as <-. apply fitsb_fits. exact Q.
      - injection A as <-. apply conv_fits. }
    subst r. clear E.
    destruct (common_operands (common a b) d) as [_ S'].
    destruct (arith_common g (common (common a b) d) (ipromote (ipromote a b) d) (f x y) z Mg
                (common_not_bool _ _) (common_operands3 a b d)) as (r' & A' & E').
    + intros Sg. destruct (S' Sg) as [S1 S2]. split; [eapply (within_fits _ _ _ S1)|eapply (within_fits _ _ _ S2)]; assumption.
    + exact F.
    + rewrite A'. cbn [bind]. rewrite E'. reflexivity.
Qed.

(** Division. *)
Lemma idiv_exact a b x y :
  fits a x -> fits b y ->
  (is_signed (common a b) = true \/ (0 <= x /\ 0 <= y)) ->
  y <> 0 -> fits (ipromote a b) (Z.quot x y) ->
  idiv a b x y = Some (Z.quot x y).
Proof.
  intros Fx Fy H Ny F. unfold idiv. destruct (common_cmp a b x y Fx Fy H) as [E1 E2].
  rewrite E1, E2. rewrite (proj2 (Z.eqb_neq y 0) Ny). cbn [negb bind].
  destruct (common_operands a b) as [C _].
  destruct (reduce_exact (ipromote a b) (common a b) (Z.quot x y) (common_not_bool a b) C F) as (r & A & E).
  rewrite A. cbn [bind]. rewrite E. reflexivity.
Qed.

(** Complement. *)
Lemma ibnot_unsigned t x :
  fits t x -> is_signed t = false -> t <> Bool_ ->
  ibnot t x = Some (hi t - x).
Proof.
  intros F S N. unfold ibnot. destruct (lift_facts t) as (NB & C & W).
  destruct (is_signed (lift t)) eqn:SL.
  - assert (Q : fits (lift t) (Z.lnot x)).
    { unfold Z.lnot. pose proof (within_fits _ _ _ (W eq_refl) F) as F'.
      unfold fits, lo, hi in *. rewrite SL in *. lia. }
    unfold arith. rewrite SL, (proj2 (fitsb_fits _ _) Q). cbn [bind]. f_equal.
    apply (fits_mod_eq t); [apply conv_fits| |].
    + unfold fits, lo in *. rewrite S in *. lia.
    + rewrite conv_mod by exact N. unfold hi. rewrite S. unfold Z.lnot.
      pose proof (pow_pos (width t) ltac:(pose proof (width_pos t); lia)).
      rewrite <- (Z.mod_add (Z.pred (- x)) 1) by lia. f_equal. lia.
  - assert (E : lift t = t) by (destruct t; try reflexivity; discriminate SL).
    rewrite E in *. unfold arith. rewrite S. cbn [bind].
    unfold hi. rewrite S. assert (Q : fits t (2 ^ width t - 1 - x)).
    { unfold fits, lo, hi in *. rewrite S in *. lia. }
    rewrite !(conv_id _ _ Q). reflexivity.
Qed.

Lemma ibnot_signed t x :
  fits t x -> is_signed t = true -> ibnot t x = Some (- x - 1).
Proof.
  intros F S. unfold ibnot. assert (SL : is_signed (lift t) = true) by (destruct t; try discriminate S; reflexivity).
  rewrite SL. destruct (lift_facts t) as (NB & C & W).
  assert (Q : fits t (Z.lnot x)).
  { unfold Z.lnot. unfold fits, lo, hi in *. rewrite S in *. lia. }
  pose proof (within_fits _ _ _ (W SL) Q) as Q'.
  unfold arith. rewrite SL, (proj2 (fitsb_fits _ _) Q'). cbn [bind].
  rewrite (conv_id _ _ Q). unfold Z.lnot. f_equal.
Qed.

(** Magnitudes. *)
Lemma imag_exact t x : fits t (Z.abs x) -> imag_ t x = Some (Z.abs x).
Proof.
  intros F. unfold imag_. destruct (unary_exact t (Z.abs x) F) as (r & A & E).
  rewrite A. cbn [bind]. rewrite E. reflexivity.
Qed.

Lemma isq_exact t x : fits t (x * x) -> isq t x = Some (x * x).
Proof.
  intros F. unfold isq. destruct (unary_exact t (x * x) F) as (r & A & E).
  rewrite A. cbn [bind]. rewrite E. reflexivity.
Qed.

Lemma ineg_exact t x : fits t (- x) -> ineg t x = Some (- x).
Proof.
  intros F. unfold ineg. destruct (unary_exact t (- x) F) as (r & A & E).
  rewrite A. cbn [bind]. rewrite E. reflexivity.
Qed.

Lemma impl_max_ok x y : impl_max x y = Z.max x y.
Proof. unfold impl_max. destruct (Z.gtb_spec x y); lia. Qed.
Lemma impl_min_ok x y : impl_min x y = Z.min x y.
Proof. unfold impl_min. destruct (Z.ltb_spec x y); lia. Qed.

(** ** Promotion *)

Definition table : list ty := [TBool; TShort; TInt; TLong; TFloat; TDouble].

Lemma table_cases t : In t table ->
  t = TBool \/ t = TShort \/ t = TInt \/ t = TLong \/ t = TFloat \/ t = TDouble.
Proof. cbn. intuition congruence. Qed.

(** ** Algebra *)
Section Algebra.
  Variable R : CRing.
  Add Ring Rring : (r_th R).
  Local Open Scope cr_scope.

  Lemma cmagsq_norm (z : cx R) : cx_mul R z (cx_conj R z) = (cmagsq R z, r0).
  Proof. destruct z as [a b]. unfold cx_mul, cx_conj, cmagsq. cbn [fst snd]. f_equal; ring. Qed.

  Lemma cmagsq_mul (z w : cx R) : cmagsq R (cx_mul R z w) = cmagsq R z * cmagsq R w.
  Proof. destruct z as [a b], w as [c d]. unfold cx_mul, cmagsq. cbn [fst snd]. ring. Qed.

  Lemma jmul_undo (z w : cx R) : cx_mul R (jmul R z w) w = cx_scale R (cmagsq R w) z.
  Proof.
    destruct z as [a b], w as [c d]. unfold jmul, cx_mul, cx_conj, cx_scale, cmagsq. cbn [fst snd].
    f_equal; ring.
  Qed.

  Lemma expoavg_ok (a b c : R) : expoavg R a b c = c + a * (b - c).
  Proof. unfold expoavg. ring. Qed.
End Algebra.
