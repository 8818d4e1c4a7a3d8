(** Algebra of the discrete Fourier transform: inversion, symmetry. *)
From Coq Require Import ZArith List Bool Arith Lia Ring.
From Verif Require Import Base Dft DftProofs DftMulti DftThree.
Import ListNotations.
Local Open Scope nat_scope.

Section Inv.
  Context (R : CRing).
  Add Ring Rr : (r_th R).
  Add Ring Cc : (r_th (Cr R)).
  Context (t : trig R).
  Notation cpx := (Cr R).
  Notation DFT := (DFT R t). Notation DFT2 := (DFT2 R t). Notation DFT3 := (DFT3 R t).
  Notation W := (sin_cos R t). Notation herm := (herm R). Notation cj := (cconj R). Notation nr := (nat_r R).

  Lemma cj_add (x y : cpx) : cj (x + y)%cr = (cj x + cj y)%cr.
  Proof. destruct x, y. unfold cconj. cbn. f_equal. ring. Qed.
  Lemma cj_mul (x y : cpx) : cj (x * y)%cr = (cj x * cj y)%cr.
  Proof. destruct x, y. unfold cconj. cbn. f_equal; ring. Qed.
  Lemma cj_0 : cj (0%cr : cpx) = (0%cr : cpx).
  Proof. unfold cconj. cbn. f_equal. ring. Qed.
  Lemma cj_sum f n : cj (sum f n) = sum (fun i => cj (f i)) n.
  Proof. induction n; cbn [sum]; [apply cj_0|]. rewrite cj_add, IHn. reflexivity. Qed.
  Lemma cj_real (x : R) : cj (ofR R x) = ofR R x.
  Proof. unfold cconj, ofR. cbn [fst snd]. f_equal. ring. Qed.
  Lemma ofR_add (x y : R) : ofR R (x + y)%cr = (ofR R x + ofR R y)%cr.
  Proof. unfold ofR. cbn. f_equal. ring. Qed.
  Lemma ofR_mul (x y : R) : ofR R (x * y)%cr = (ofR R x * ofR R y)%cr.
  Proof. unfold ofR. cbn. f_equal; ring. Qed.
  Lemma nr_real n : exists k, nr n = ofR R k.
  Proof.
    induction n as [|n [k E]]; [exists 0%cr; reflexivity|]. exists (k + 1)%cr. unfold nat_r in *. cbn [sum]. rewrite E, ofR_add. reflexivity.
  Qed.
  Lemma nr_mul c n : sum (fun _ => c : cpx) n = (nr n * c)%cr.
  Proof.
    unfold nat_r. replace (sum (fun _ => 1%cr : cpx) n * c)%cr with (c * sum (fun _ => 1%cr : cpx) n)%cr by ring.
    rewrite <- (sum_mul_l (Cr R)). apply (sum_ext (Cr R)). intros i _. ring.
  Qed.
  Lemma sum_one (f : nat -> cpx) n k : k < n -> (forall i, i < n -> i <> k -> f i = 0%cr) -> sum f n = f k.
  Proof.
    induction n as [|n IH]; intros Hk H; [lia|]. cbn [sum]. destruct (Nat.eq_dec k n) as [E|N].
    - subst k. rewrite (sum_0 (Cr R)) by (intros i Hi; apply H; lia). ring.
    - rewrite IH by (try lia; intros i Hi Ni; apply H; lia). rewrite (H n) by lia. ring.
  Qed.

  Lemma W_mul_l l (ex : exact R t l) (a : Z) (k : nat) : W l (a * Z.of_nat l)%Z = (1%cr : cpx).
  Proof.
    assert (P : forall n : nat, W l (Z.of_nat n * Z.of_nat l)%Z = (1%cr : cpx)).
    { induction n as [|n IH]; [apply (ex_0 _ _ _ ex)|]. replace (Z.of_nat (S n) * Z.of_nat l)%Z with (Z.of_nat n * Z.of_nat l + Z.of_nat l)%Z by lia.
      rewrite (ex_add _ _ _ ex), IH, (ex_per _ _ _ ex). ring. }
    destruct (Z_le_gt_dec 0 a) as [H|H].
    - rewrite <- (Z2Nat.id a H). apply P.
    - replace (a * Z.of_nat l)%Z with (- (Z.of_nat (Z.to_nat (- a)) * Z.of_nat l))%Z by lia.
      rewrite (ex_opp _ _ _ ex), P. unfold cconj. cbn. f_equal. ring.
  Qed.

  (** Orthogonality. *)
  Lemma orth l (ex : exact R t l) e j k : (e = 1 \/ e = -1)%Z -> j < l -> k < l ->
    sum (fun w => W l (e * Z.of_nat w * (Z.of_nat k - Z.of_nat j))%Z) l = if Nat.eqb j k then nr l else (0%cr : cpx).
  Proof.
    intros He Hj Hk. destruct (Nat.eqb_spec j k) as [E|N].
    - subst j. unfold nat_r. apply (sum_ext (Cr R)). intros w _. replace (e * Z.of_nat w * (Z.of_nat k - Z.of_nat k))%Z with 0%Z by lia. apply (ex_0 _ _ _ ex).
    - assert (Pos : forall d, 0 < d < l -> forall s : Z, (s = 1 \/ s = -1)%Z -> sum (fun w => W l (s * (Z.of_nat w * Z.of_nat d))%Z) l = (0%cr : cpx)).
      { intros d Hd s [->| ->].
        - rewrite <- (ex_sum _ _ _ ex d Hd). apply (sum_ext (Cr R)). intros w _. rewrite Z.mul_1_l. reflexivity.
        - rewrite <- cj_0, <- (ex_sum _ _ _ ex d Hd), cj_sum. apply (sum_ext (Cr R)). intros w _. rewrite <- (ex_opp _ _ _ ex). apply f_equal. lia. }
      destruct (Nat.lt_ge_cases j k) as [L|L].
      + rewrite <- (Pos (k - j) ltac:(lia) e He). apply (sum_ext (Cr R)). intros w _. apply f_equal. rewrite Nat2Z.inj_sub by lia. lia.
      + rewrite <- (Pos (j - k) ltac:(lia) (- e)%Z ltac:(lia)). apply (sum_ext (Cr R)). intros w _. apply f_equal. rewrite Nat2Z.inj_sub by lia. lia.
  Qed.

  Lemma DFT_inv l (ex : exact R t l) e x k : (e = 1 \/ e = -1)%Z -> k < l -> DFT e l (DFT (- e) l x) k = (nr l * x k)%cr.
  Proof.
    intros He Hk. unfold Dft.DFT.
    transitivity (sum (fun j => (x j * sum (fun w => W l (e * Z.of_nat w * (Z.of_nat k - Z.of_nat j))%Z) l)%cr) l).
    - transitivity (sum (fun w => sum (fun j => (x j * (W l (e * Z.of_nat w * (Z.of_nat k - Z.of_nat j))%Z))%cr) l) l).
      + apply (sum_ext (Cr R)). intros w _. rewrite <- (sum_mul_r R). apply (sum_ext (Cr R)). intros j _.
        replace (e * Z.of_nat w * (Z.of_nat k - Z.of_nat j))%Z with ((- e * Z.of_nat j * Z.of_nat w) + (e * Z.of_nat w * Z.of_nat k))%Z by ring.
        rewrite (ex_add _ _ _ ex). ring.
      + rewrite (sum_swap (Cr R)). apply (sum_ext (Cr R)). intros j _. apply (sum_mul_l (Cr R)).
    - rewrite (sum_one _ l k Hk).
      + rewrite orth by assumption. rewrite Nat.eqb_refl. ring.
      + intros j Hj N. rewrite orth by assumption. destruct (Nat.eqb_spec j k); [contradiction|ring].
  Qed.

  Lemma DFT_lin e l c x w : DFT e l (fun k => c * x k)%cr w = (c * DFT e l x w)%cr.
  Proof. unfold Dft.DFT. rewrite <- (sum_mul_l (Cr R)). apply (sum_ext (Cr R)). intros k _. ring. Qed.
  Lemma DFT2_lin e n l c x u v : DFT2 e n l (fun r k => c * x r k)%cr u v = (c * DFT2 e n l x u v)%cr.
  Proof.
    rewrite <- !(DFT2_rc R t), <- DFT_lin. apply (DFT_ext R t). intros r _. apply DFT_lin.
  Qed.

  Lemma DFT2_inv n l (exn : exact R t n) (exl : exact R t l) e x u v : (e = 1 \/ e = -1)%Z -> u < n -> v < l ->
    DFT2 e n l (DFT2 (- e) n l x) u v = (nr n * nr l * x u v)%cr.
  Proof.
    intros He Hu Hv. rewrite <- (DFT2_rc R t).
    transitivity (DFT e n (fun r => nr l * DFT (- e) n (fun r' => x r' v) r)%cr u).
    - apply (DFT_ext R t). intros r Hr. rewrite <- (DFT_inv l exl e (fun c => DFT (- e) n (fun r' => x r' c) r) v He Hv).
      apply (DFT_ext R t). intros c Hc. symmetry. apply (DFT2_cr R t).
    - rewrite DFT_lin, DFT_inv by assumption. ring.
  Qed.
  Lemma DFT3_inv nx ny nz (ex : exact R t nx) (ey : exact R t ny) (ez : exact R t nz) e x u v w : (e = 1 \/ e = -1)%Z -> u < nx -> v < ny -> w < nz ->
    DFT3 e nx ny nz (DFT3 (- e) nx ny nz x) u v w = (nr nx * nr ny * nr nz * x u v w)%cr.
  Proof.
    intros He Hu Hv Hw. rewrite <- (DFT3_12 R t).
    transitivity (DFT e nx (fun i => (nr ny * nr nz) * DFT (- e) nx (fun i' => x i' v w) i)%cr u).
    - apply (DFT_ext R t). intros i Hi. rewrite <- (DFT2_inv ny nz ey ez e (fun j k => DFT (- e) nx (fun i' => x i' j k) i) v w He Hv Hw).
      apply (DFT2_ext R t). intros j k Hj Hk. symmetry. apply (DFT3_21 R t).
    - rewrite DFT_lin, DFT_inv by assumption. ring.
  Qed.

  (** The spectrum of a real sequence is Hermitian. *)
  Lemma DFT_real l (ex : exact R t l) (x : nat -> R) k : 0 < k <= l -> cj (DFT (-1) l (fun j => ofR R (x j)) (l - k)) = DFT (-1) l (fun j => ofR R (x j)) k.
  Proof.
    intros Hk. unfold Dft.DFT. rewrite cj_sum. apply (sum_ext (Cr R)). intros j _. rewrite cj_mul, cj_real. f_equal.
    rewrite <- (ex_opp _ _ _ ex). rewrite Nat2Z.inj_sub by lia.
    replace (- (-1 * Z.of_nat j * (Z.of_nat l - Z.of_nat k)))%Z with (Z.of_nat j * Z.of_nat l + (-1 * Z.of_nat j * Z.of_nat k))%Z by ring.
    rewrite (ex_add _ _ _ ex), (W_mul_l l ex _ 0). ring.
  Qed.
  Lemma herm_real l (ex : exact R t l) c (x : nat -> R) k : k < l -> herm l (fun w => ofR R c * DFT (-1) l (fun j => ofR R (x j)) w)%cr k = (ofR R c * DFT (-1) l (fun j => ofR R (x j)) k)%cr.
  Proof.
    intros Hk. unfold Dft.herm. destruct (Nat.leb_spec k (l / 2)) as [H|H]; [reflexivity|].
    rewrite cj_mul, cj_real, DFT_real by (try assumption; lia). reflexivity.
  Qed.
  Lemma herm_ext l x y k : k < l -> (forall i, i < l / 2 + 1 -> x i = y i) -> herm l x k = herm l y k.
  Proof.
    intros Hk H. unfold Dft.herm. destruct (Nat.leb_spec k (l / 2)) as [L|L]; [apply H; lia|]. f_equal. apply H.
    pose proof (Nat.div_mod l 2 ltac:(lia)). pose proof (Nat.mod_upper_bound l 2 ltac:(lia)). lia.
  Qed.
  Lemma crdft_inv l (ex : exact R t l) c (x : nat -> R) y k : k < l ->
    (forall w, w < l / 2 + 1 -> y w = (ofR R c * DFT (-1) l (fun j => ofR R (x j)) w)%cr) ->
    DFT 1 l (herm l y) k = (nr l * (ofR R c * ofR R (x k)))%cr.
  Proof.
    intros Hk Hy. transitivity (DFT 1 l (fun w => ofR R c * DFT (-1) l (fun j => ofR R (x j)) w)%cr k).
    - apply (DFT_ext R t). intros w Hw. rewrite <- herm_real by assumption. apply herm_ext; [exact Hw|]. exact Hy.
    - rewrite DFT_lin. pose proof (DFT_inv l ex 1 (fun j => ofR R (x j)) k (or_introl eq_refl) Hk) as X. change (- (1))%Z with (-1)%Z in X.
      etransitivity; [exact (f_equal (fun v => ofR R c * v)%cr X)|cbv beta; ring].
  Qed.
  Lemma stored_real q v (x : R) : v = ofR R x -> as_stored R q v = v.
  Proof. intros ->. destruct q; reflexivity. Qed.
  Lemma nr_ofR l c x : exists v, (nr l * (ofR R c * ofR R x))%cr = ofR R v.
  Proof. destruct (nr_real l) as [k E]. exists (k * (c * x))%cr. rewrite !ofR_mul, E. reflexivity. Qed.

  (** Packaging. *)
  Notation st := (st R).
  Lemma eff_computes {J K} op (dJ : J -> Prop) p a x (dK : K -> Prop) q b y :
    eff R op dJ p a x dK q b y -> computes R op dJ p a x dK q b (fun k => as_stored R q (y k)).
  Proof.
    intros H m I Rm. destruct (H m I) as (m' & E & G & F & L).
    - intros k Dk. apply writable_wr, Rm, Dk.
    - exists m'. split; [exact E|]. split; [exact G|]. split.
      + intros c Hc. pose proof (F c Hc) as X. destruct c; cbn [peek rd] in *; congruence.
      + intros p' i X. apply writable_wr. apply writable_wr in X. exact (wr_alive R m m' _ _ L X).
  Qed.
  Lemma computes_val {J K} op (dJ : J -> Prop) p a x (dK : K -> Prop) q b y y' :
    computes R op dJ p a x dK q b y -> (forall k, dK k -> y k = y' k) -> computes R op dJ p a x dK q b y'.
  Proof.
    intros H E m I Rm. destruct (H m I Rm) as (m' & X & G & O). exists m'. split; [exact X|]. split; [|exact O].
    intros k Dk. rewrite <- E by exact Dk. apply G, Dk.
  Qed.
  Lemma cpx_nreal q : cpx_ptr q -> nreal R q.
  Proof. destruct q; intros H v; try contradiction; reflexivity. Qed.
  Lemma cpx_ntmp q : cpx_ptr q -> ntmp q.
  Proof. destruct q; intros H; try contradiction; exact I. Qed.
  Lemma real_ntmp q : real_ptr q -> ntmp q.
  Proof. destruct q; intros H; try contradiction; exact I. Qed.
  Lemma eff_cpx {J K} op (dJ : J -> Prop) p a x (dK : K -> Prop) q b y :
    cpx_ptr q -> eff R op dJ p a x dK q b y -> computes R op dJ p a x dK q b y.
  Proof. intros C H. refine (computes_val _ _ _ _ _ _ _ _ _ _ (eff_computes _ _ _ _ _ _ _ _ _ H) _). intros k _. apply cpx_nreal, C. Qed.
  Lemma eff_real {J K} op (dJ : J -> Prop) p a x (dK : K -> Prop) q b y :
    real_ptr q -> eff R op dJ p a x dK q b y -> computes R op dJ p a x dK q b (fun k => ofR R (fst (y k))).
  Proof. intros C H. refine (computes_val _ _ _ _ _ _ _ _ _ _ (eff_computes _ _ _ _ _ _ _ _ _ H) _). intros k _. destruct q; try contradiction. reflexivity. Qed.

  (** Two transforms in a row, the second into [r]. *)
  Lemma computes_seq {J L K} op1 op2 (dJ : J -> Prop) p a x (dL : L -> Prop) q b y (dK : K -> Prop) r c z m :
    computes R op1 dJ p a x dL q b y -> computes R op2 dL q b y dK r c z ->
    holds R m dJ p a x -> room R m dL q b -> room R m dK r c ->
    exists m1 m2, op1 m = Some m1 /\ op2 m1 = Some m2 /\ holds R m1 dL q b y /\ holds R m2 dK r c z.
  Proof.
    intros H1 H2 I Rq Rr. destruct (H1 m I Rq) as (m1 & E1 & G1 & O1). destruct (H2 m1 G1) as (m2 & E2 & G2 & _).
    - intros k Dk. apply O1, Rr, Dk.
    - exists m1, m2. repeat split; assumption.
  Qed.

  (** The scale factor. *)
  Lemma scale_eff ne1 k q rs cstr rows cols x : nreal R q \/ (forall i, ix2 rows cols i -> exists v, x i = ofR R v) -> dist (ix2 rows cols) q (at2 rs cstr) -> (ne1 = false -> k = 1%cr) ->
    forall m, holds R m (ix2 rows cols) q (at2 rs cstr) x -> room R m (ix2 rows cols) q (at2 rs cstr) ->
      exists m', scale_view R ne1 k q rs cstr rows cols m = Some m' /\
        holds R m' (ix2 rows cols) q (at2 rs cstr) (fun i => x i * ofR R k)%cr /\ only R m m' (ix2 rows cols) q (at2 rs cstr).
  Proof.
    intros NR D H1 m I Rm. unfold scale_view. destruct ne1.
    - assert (ST : forall i, ix2 rows cols i -> as_stored R q (x i * ofR R k)%cr = (x i * ofR R k)%cr).
      { intros i Di. destruct NR as [NR|NR]; [apply NR|]. destruct (NR i Di) as [v E]. apply (stored_real q _ (v * k)%cr). rewrite E, ofR_mul. reflexivity. }
      assert (X : eff R (fun m => loop (fun r m' => loop (fun c m'' => v <- get R m'' q (off r rs + off c cstr)%Z;; put R m'' q (off r rs + off c cstr)%Z (v * ofR R k)%cr) 0 cols m') 0 rows m)
         (ix2 rows cols) q (at2 rs cstr) x (ix2 rows cols) q (at2 rs cstr) (fun i => x i * ofR R k)%cr).
      { pose proof (eff_loop R (fun r m' => loop (fun c m'' => v <- get R m'' q (off r rs + off c cstr)%Z;; put R m'' q (off r rs + off c cstr)%Z (v * ofR R k)%cr) 0 cols m') rows
          (fun ij : nat * unit => fst ij < cols /\ True) q (fun r c => at2 rs cstr (r, fst c)) (fun r c => x (r, fst c)) (fun ij : nat * unit => fst ij < cols /\ True) q (fun r c => at2 rs cstr (r, fst c)) (fun r c => x (r, fst c) * ofR R k)%cr) as H.
        refine (eff_reindex R _ _ _ _ _ _ _ _ _ _ _ _ _ _ _ (H _ _ _) _ _ _).
        - intros r Hr. pose proof (eff_loop R (fun c m'' => v <- get R m'' q (off r rs + off c cstr)%Z;; put R m'' q (off r rs + off c cstr)%Z (v * ofR R k)%cr) cols
            (fun _ : unit => True) q (fun c _ => at2 rs cstr (r, c)) (fun c _ => x (r, c)) (fun _ : unit => True) q (fun c _ => at2 rs cstr (r, c)) (fun c _ => x (r, c) * ofR R k)%cr) as H'.
          apply H'.
          + intros c Hc m0 I0 W0. unfold at2 in I0, W0. cbn [fst snd] in *. rewrite (I0 tt Logic.I). cbn [bind].
            destruct (put_ok R m0 q _ (x (r, c) * ofR R k)%cr (W0 tt Logic.I)) as (m1 & E1 & G1 & F1 & L1). exists m1. split; [exact E1|]. split; [intros _ _; exact G1|]. split; [|exact L1].
            intros u Hu. apply F1. exact (Hu tt Logic.I).
          + intros i j _ _ Hi Hj N _ _. apply D; [split; assumption|split; assumption|congruence].
          + intros i j _ _ Hi Hj N _ _. apply D; [split; assumption|split; assumption|congruence].
        - intros i j c c' Hi Hj N [Hc _] [Hc' _]. apply D; [split; assumption|split; assumption|congruence].
        - intros i j c c' Hi Hj N [Hc _] [Hc' _]. apply D; [split; assumption|split; assumption|congruence].
        - intros [i [c []]] [Hi [Hc _]]. exists (i, c). repeat split; assumption.
        - intros [i [c []]] [Hi [Hc _]]. exists (i, c). repeat split; assumption.
        - intros [i c] [Hi Hc]. exists (i, (c, tt)). repeat split; assumption. }
      destruct (eff_computes _ _ _ _ _ _ _ _ _ X m I Rm) as (m' & E & G & O). exists m'. split; [exact E|]. split; [|exact O].
      intros i Di. rewrite (G i Di), ST by exact Di. reflexivity.
    - exists m. split; [reflexivity|]. split; [|split; [reflexivity|intros p i X; exact X]].
      intros i Di. rewrite (I i Di). f_equal. rewrite (H1 eq_refl). unfold ofR. destruct (x i). cbn. f_equal; ring.
  Qed.
End Inv.
