(** The transforms in several dimensions, and the many-transforms variant. *)
From Coq Require Import ZArith List Bool Arith Lia Ring.
From Verif Require Import Base Dft DftProofs.
Import ListNotations.
Local Open Scope nat_scope.

Lemma poff_padd q o : int_ok q o -> poff q o = padd q o.
Proof.
  destruct q; cbn [int_ok poff]; intros H; try reflexivity. f_equal. unfold to_int.
  destruct (Z.ltb_spec (o mod 4294967296) 2147483648) as [X|X]; destruct (Z_lt_le_dec o 0) as [N|N].
  - exfalso. assert (E : (o mod 4294967296 = o + 4294967296)%Z) by (symmetry; apply (Z.mod_unique_pos o 4294967296 (-1)); lia). lia.
  - apply Z.mod_small. lia.
  - assert (E : (o mod 4294967296 = o + 4294967296)%Z) by (symmetry; apply (Z.mod_unique_pos o 4294967296 (-1)); lia). lia.
  - exfalso. rewrite Z.mod_small in X; lia.
Qed.

Section Multi.
  Context (R : CRing).
  Add Ring Rr : (r_th R).
  Add Ring Cc : (r_th (Cr R)).
  Context (t : trig R).
  Notation st := (st R). Notation cpx := (Cr R).
  Implicit Types (m : st) (p q : ptr).
  Notation DFT := (DFT R t). Notation eff := (eff R).

  Lemma eff_padd {J K} op (dJ : J -> Prop) p o a x (dK : K -> Prop) q o' b y :
    eff op dJ (padd p o) a x dK (padd q o') b y ->
    eff op dJ p (fun j => o + a j)%Z x dK q (fun k => o' + b k)%Z y.
  Proof.
    intros H m I W. destruct (H m) as (m' & E & G & F & L).
    - intros j Dj. rewrite get_padd. apply I, Dj.
    - intros k Dk. unfold wr. rewrite cells_padd. apply W, Dk.
    - exists m'. split; [exact E|]. split; [|split; [|exact L]].
      + intros k Dk. rewrite <- get_padd, <- (as_stored_padd R q o'). apply G, Dk.
      + intros c Hc. apply F. intros k Dk. rewrite cells_padd. apply Hc, Dk.
  Qed.
  Lemma apart_padd p o i q o' j : apart (padd p o) i (padd q o') j <-> apart p (o + i) q (o' + j).
  Proof. unfold apart. rewrite !cells_padd. tauto. Qed.

  Definition nreal q := forall v : cpx, as_stored R q v = v.
  Definition ntmp q := match q with Tmp _ => False | _ => True end.
  Lemma padd_nreal q o : nreal q -> nreal (padd q o).
  Proof. intros H v. rewrite as_stored_padd. apply H. Qed.
  Lemma ntmp_padd q o : ntmp q -> ntmp (padd q o).
  Proof. destruct q; exact (fun x => x). Qed.

  (** Lines transformed in place. *)
  Definition lin (B : nat -> Z) (s : Z) (ik : nat * nat) : Z := (B (fst ik) + Z.of_nat (snd ik) * s)%Z.

  Lemma lines_ip e q B s n l x : dist (ix2 n l) q (lin B s) ->
    eff (loop (fun i m => dft1_in_place R t e (padd q (B i)) s l m) 0 n) (ix2 n l) q (lin B s) x
      (ix2 n l) q (lin B s) (fun ik => DFT e l (fun k => x (fst ik, k)) (snd ik)).
  Proof.
    intros D.
    pose proof (eff_loop R (fun i m => dft1_in_place R t e (padd q (B i)) s l m) n (fun k => k < l) q
      (fun i k => B i + Z.of_nat k * s)%Z (fun i k => x (i, k)) (fun k => k < l) q (fun i k => B i + Z.of_nat k * s)%Z
      (fun i => DFT e l (fun k => x (i, k)))) as H.
    refine (eff_reindex R _ _ _ _ _ _ _ _ _ _ _ _ _ _ _ (H _ _ _) _ _ _).
    - intros i Hi. apply (eff_padd (fun m => dft1_in_place R t e (padd q (B i)) s l m)).
      apply dft1_ip_eff. intros w w' Hw Hw' N. apply apart_padd. apply (D (i, w) (i, w')); [split; assumption|split; assumption|congruence].
    - intros i j k k' Hi Hj N Hk Hk'. apply (D (i, k) (j, k')); [split; assumption|split; assumption|congruence].
    - intros i j k k' Hi Hj N Hk Hk'. apply (D (i, k) (j, k')); [split; assumption|split; assumption|congruence].
    - intros [i k] [Hi Hk]. exists (i, k). repeat split; assumption.
    - intros [i k] [Hi Hk]. exists (i, k). repeat split; assumption.
    - intros [i k] [Hi Hk]. exists (i, k). repeat split; assumption.
  Qed.

  (** Lines transformed out of place by any of the 1-D transforms. *)
  Lemma lines_oop (op : ptr -> ptr -> st -> option st) p A sp q B sq n l l' (T : (nat -> cpx) -> nat -> cpx) x :
    (forall p' q' x', (forall w w', w < l' -> w' < l' -> w <> w' -> apart q' (Z.of_nat w * sq) q' (Z.of_nat w' * sq)) ->
      (forall w k, w < l' -> k < l -> apart q' (Z.of_nat w * sq) p' (Z.of_nat k * sp)) ->
      eff (op p' q') (fun k => k < l) p' (fun k => Z.of_nat k * sp)%Z x' (fun k => k < l') q' (fun k => Z.of_nat k * sq)%Z (T x')) ->
    dist (ix2 n l') q (lin B sq) -> disj (ix2 n l) p (lin A sp) (ix2 n l') q (lin B sq) ->
    eff (loop (fun i m => op (padd p (A i)) (padd q (B i)) m) 0 n) (ix2 n l) p (lin A sp) x
      (ix2 n l') q (lin B sq) (fun ik => T (fun k => x (fst ik, k)) (snd ik)).
  Proof.
    intros Hop D DI.
    pose proof (eff_loop R (fun i m => op (padd p (A i)) (padd q (B i)) m) n (fun k => k < l) p
      (fun i k => A i + Z.of_nat k * sp)%Z (fun i k => x (i, k)) (fun k => k < l') q (fun i k => B i + Z.of_nat k * sq)%Z
      (fun i => T (fun k => x (i, k)))) as H.
    refine (eff_reindex R _ _ _ _ _ _ _ _ _ _ _ _ _ _ _ (H _ _ _) _ _ _).
    - intros i Hi. apply (eff_padd (fun m => op (padd p (A i)) (padd q (B i)) m)). apply Hop.
      + intros w w' Hw Hw' N. apply apart_padd. apply (D (i, w) (i, w')); [split; assumption|split; assumption|congruence].
      + intros w k Hw Hk. apply apart_padd. apply (DI (i, k) (i, w)); split; assumption.
    - intros i j k k' Hi Hj N Hk Hk'. apply (D (i, k) (j, k')); [split; assumption|split; assumption|congruence].
    - intros i j k k' Hi Hj N Hk Hk'. apply (DI (j, k') (i, k)); split; assumption.
    - intros [i k] [Hi Hk]. exists (i, k). repeat split; assumption.
    - intros [i k] [Hi Hk]. exists (i, k). repeat split; assumption.
    - intros [i k] [Hi Hk]. exists (i, k). repeat split; assumption.
  Qed.

  (** Separability. *)
  Lemma sum_mul_r (c : cpx) f n : (sum (fun i => f i * c) n = sum f n * c)%cr.
  Proof.
    replace (sum f n * c)%cr with (c * sum f n)%cr by ring. rewrite <- (sum_mul_l (Cr R)).
    apply (sum_ext (Cr R)). intros i _. ring.
  Qed.
  Lemma DFT_ext e l x y w : (forall k, k < l -> x k = y k) -> DFT e l x w = DFT e l y w.
  Proof. intros H. apply (sum_ext (Cr R)). intros k Hk. rewrite H by exact Hk. reflexivity. Qed.
  Lemma DFT2_rc e rows cols x u v : DFT e rows (fun r => DFT e cols (x r) v) u = DFT2 R t e rows cols x u v.
  Proof.
    unfold Dft.DFT, DFT2. apply (sum_ext (Cr R)). intros r _. rewrite <- sum_mul_r. apply (sum_ext (Cr R)). intros c _. ring.
  Qed.
  Lemma DFT2_cr e rows cols x u v : DFT e cols (fun c => DFT e rows (fun r => x r c) u) v = DFT2 R t e rows cols x u v.
  Proof.
    unfold Dft.DFT, DFT2. rewrite (sum_swap (Cr R)). apply (sum_ext (Cr R)). intros c _. rewrite <- sum_mul_r. apply (sum_ext (Cr R)). intros r _. ring.
  Qed.
  Lemma DFT3_12 e nx ny nz x u v w : DFT e nx (fun i => DFT2 R t e ny nz (x i) v w) u = DFT3 R t e nx ny nz x u v w.
  Proof.
    unfold Dft.DFT, DFT2, DFT3. apply (sum_ext (Cr R)). intros i _. rewrite <- sum_mul_r. apply (sum_ext (Cr R)). intros j _.
    rewrite <- sum_mul_r. apply (sum_ext (Cr R)). intros k _. ring.
  Qed.
  Lemma DFT2_ext e rows cols x y u v : (forall r c, r < rows -> c < cols -> x r c = y r c) -> DFT2 R t e rows cols x u v = DFT2 R t e rows cols y u v.
  Proof. intros H. apply (sum_ext (Cr R)). intros r Hr. apply (sum_ext (Cr R)). intros c Hc. rewrite H by assumption. reflexivity. Qed.

  (** Offsets of 2-D and 3-D views. *)
  Definition swp (rc : nat * nat) : nat * nat := (snd rc, fst rc).
  Lemma at2_swp rs cstr rc : at2 cstr rs (swp rc) = at2 rs cstr rc.
  Proof. unfold at2, swp. cbn [fst snd]. lia. Qed.
  Lemma dist_swp rows cols q rs cstr : dist (ix2 rows cols) q (at2 rs cstr) -> dist (ix2 cols rows) q (at2 cstr rs).
  Proof.
    intros D [i k] [i' k'] [Hi Hk] [Hi' Hk'] N. cbn [fst snd] in *.
    pose proof (D (k, i) (k', i') (conj Hk Hi) (conj Hk' Hi') ltac:(congruence)) as X. unfold at2 in *. cbn [fst snd] in *.
    rewrite (Z.add_comm (off i cstr)), (Z.add_comm (off i' cstr)). exact X.
  Qed.

  Lemma cols_ip e q rs cstr rows cols x : dist (ix2 rows cols) q (at2 rs cstr) ->
    eff (loop (fun c m => dft1_in_place R t e (padd q (off c cstr)) rs rows m) 0 cols) (ix2 rows cols) q (at2 rs cstr) x
      (ix2 rows cols) q (at2 rs cstr) (fun rc => DFT e rows (fun r => x (r, snd rc)) (fst rc)).
  Proof.
    intros D. pose proof (lines_ip e q (fun c => off c cstr) rs cols rows (fun cr => x (swp cr)) (dist_swp _ _ _ _ _ D)) as H.
    refine (eff_reindex R _ _ _ _ _ _ _ _ _ _ _ _ _ _ _ H _ _ _).
    - intros [c r] [Hc Hr]. exists (r, c). repeat split; try assumption. exact (eq_sym (at2_swp rs cstr (r, c))).
    - intros [c r] [Hc Hr]. exists (r, c). repeat split; try assumption. exact (eq_sym (at2_swp rs cstr (r, c))).
    - intros [r c] [Hr Hc]. exists (c, r). repeat split; try assumption. exact (at2_swp rs cstr (r, c)).
  Qed.

  Lemma eff_val {J K} op (dJ : J -> Prop) p a x (dK : K -> Prop) q b y y' :
    eff op dJ p a x dK q b y -> (forall k, dK k -> as_stored R q (y k) = as_stored R q (y' k)) -> eff op dJ p a x dK q b y'.
  Proof.
    intros H E m I W. destruct (H m I W) as (m' & X & G & F). exists m'. split; [exact X|]. split; [|exact F].
    intros k Dk. rewrite <- E by exact Dk. apply G, Dk.
  Qed.

  Lemma dft2_ip_eff e q rs cstr rows cols x : nreal q -> dist (ix2 rows cols) q (at2 rs cstr) ->
    eff (dft2_in_place R t e q rs cstr rows cols) (ix2 rows cols) q (at2 rs cstr) x
      (ix2 rows cols) q (at2 rs cstr) (fun rc => DFT2 R t e rows cols (fun r c => x (r, c)) (fst rc) (snd rc)).
  Proof.
    intros NR D. unfold dft2_in_place.
    refine (eff_then R _ _ _ _ _ _ _ _ _ _ _ (lines_ip e q (fun r => off r rs) cstr rows cols x D) _).
    refine (eff_val _ _ _ _ _ _ _ _ _ _ (cols_ip e q rs cstr rows cols _ D) _).
    intros [u v] [Hu Hv]. f_equal. cbn [fst snd]. rewrite <- DFT2_rc. apply DFT_ext. intros r Hr. apply NR.
  Qed.

  Lemma dft2_oop_eff e p irs ics q ors ocs rows cols x : nreal q -> dist (ix2 rows cols) q (at2 ors ocs) ->
    disj (ix2 rows cols) p (at2 irs ics) (ix2 rows cols) q (at2 ors ocs) ->
    eff (dft2_out_of_place R t e p irs ics q ors ocs rows cols) (ix2 rows cols) p (at2 irs ics) x
      (ix2 rows cols) q (at2 ors ocs) (fun rc => DFT2 R t e rows cols (fun r c => x (r, c)) (fst rc) (snd rc)).
  Proof.
    intros NR D DI. unfold dft2_out_of_place.
    refine (eff_then R _ _ _ _ _ _ _ _ _ _ _ (lines_oop (fun p' q' m => dft1_out_of_place R t e p' ics q' ocs cols m) p (fun r => off r irs) ics q (fun r => off r ors) ocs rows cols cols (DFT e cols) x _ D DI) _).
    - intros p' q' x' H1 H2. apply dft1_oop_eff; assumption.
    - refine (eff_val _ _ _ _ _ _ _ _ _ _ (cols_ip e q ors ocs rows cols _ D) _).
      intros [u v] [Hu Hv]. f_equal. cbn [fst snd]. rewrite <- DFT2_rc. apply DFT_ext. intros r Hr. apply NR.
  Qed.

  (** Lines along the first dimension, out of place. *)
  Lemma cols_oop (op : ptr -> ptr -> st -> option st) p irs ics q ors ocs rows rows' cols (T : (nat -> cpx) -> nat -> cpx) x :
    (forall p' q' x', (forall w w', w < rows' -> w' < rows' -> w <> w' -> apart q' (Z.of_nat w * ors) q' (Z.of_nat w' * ors)) ->
      (forall w k, w < rows' -> k < rows -> apart q' (Z.of_nat w * ors) p' (Z.of_nat k * irs)) ->
      eff (op p' q') (fun k => k < rows) p' (fun k => Z.of_nat k * irs)%Z x' (fun k => k < rows') q' (fun k => Z.of_nat k * ors)%Z (T x')) ->
    dist (ix2 rows' cols) q (at2 ors ocs) -> disj (ix2 rows cols) p (at2 irs ics) (ix2 rows' cols) q (at2 ors ocs) ->
    eff (loop (fun c m => op (padd p (off c ics)) (padd q (off c ocs)) m) 0 cols) (ix2 rows cols) p (at2 irs ics) x
      (ix2 rows' cols) q (at2 ors ocs) (fun rc => T (fun r => x (r, snd rc)) (fst rc)).
  Proof.
    intros Hop D DI.
    assert (H : eff (loop (fun c m => op (padd p (off c ics)) (padd q (off c ocs)) m) 0 cols) (ix2 cols rows) p (at2 ics irs) (fun cr => x (swp cr))
      (ix2 cols rows') q (at2 ocs ors) (fun ik => T (fun k => x (swp (fst ik, k))) (snd ik))).
    { apply (lines_oop op p (fun c => off c ics) irs q (fun c => off c ocs) ors cols rows rows' T (fun cr => x (swp cr)) Hop).
      - exact (dist_swp _ _ _ _ _ D).
      - intros [c r] [c' r'] [Hc Hr] [Hc' Hr']. cbn [fst snd] in *. pose proof (DI (r, c) (r', c') (conj Hr Hc) (conj Hr' Hc')) as X.
        rewrite <- (at2_swp ors ocs), <- (at2_swp irs ics) in X. exact X. }
    refine (eff_reindex R _ _ _ _ _ _ _ _ _ _ _ _ _ _ _ H _ _ _).
    - intros [c r] [Hc Hr]. exists (r, c). repeat split; try assumption. exact (eq_sym (at2_swp irs ics (r, c))).
    - intros [c r] [Hc Hr]. exists (r, c). repeat split; try assumption. exact (eq_sym (at2_swp ors ocs (r, c))).
    - intros [r c] [Hr Hc]. exists (c, r). repeat split; try assumption. exact (at2_swp ors ocs (r, c)).
  Qed.
  Lemma rows_oop (op : ptr -> ptr -> st -> option st) p irs ics q ors ocs rows cols cols' (T : (nat -> cpx) -> nat -> cpx) x :
    (forall p' q' x', (forall w w', w < cols' -> w' < cols' -> w <> w' -> apart q' (Z.of_nat w * ocs) q' (Z.of_nat w' * ocs)) ->
      (forall w k, w < cols' -> k < cols -> apart q' (Z.of_nat w * ocs) p' (Z.of_nat k * ics)) ->
      eff (op p' q') (fun k => k < cols) p' (fun k => Z.of_nat k * ics)%Z x' (fun k => k < cols') q' (fun k => Z.of_nat k * ocs)%Z (T x')) ->
    dist (ix2 rows cols') q (at2 ors ocs) -> disj (ix2 rows cols) p (at2 irs ics) (ix2 rows cols') q (at2 ors ocs) ->
    eff (loop (fun r m => op (padd p (off r irs)) (padd q (off r ors)) m) 0 rows) (ix2 rows cols) p (at2 irs ics) x
      (ix2 rows cols') q (at2 ors ocs) (fun rc => T (fun c => x (fst rc, c)) (snd rc)).
  Proof. intros Hop D DI. exact (lines_oop op p (fun r => off r irs) ics q (fun r => off r ors) ocs rows cols cols' T x Hop D DI). Qed.

  Lemma rdft2_eff0 p irs ics q ors ocs rows cols x : nreal q -> dist (ix2 (rows / 2 + 1) cols) q (at2 ors ocs) ->
    disj (ix2 rows cols) p (at2 irs ics) (ix2 (rows / 2 + 1) cols) q (at2 ors ocs) ->
    eff (rdft2 R t 0 p irs ics q ors ocs rows cols) (ix2 rows cols) p (at2 irs ics) x
      (ix2 (rows / 2 + 1) cols) q (at2 ors ocs) (fun rc => DFT2 R t (-1) rows cols (fun r c => x (r, c)) (fst rc) (snd rc)).
  Proof.
    intros NR D DI. unfold rdft2. cbn [Nat.eqb].
    refine (eff_then R _ _ _ _ _ _ _ _ _ _ _ (cols_oop (fun p' q' m => rdft1 R t p' irs q' ors rows m) p irs ics q ors ocs rows (rows / 2 + 1) cols (DFT (-1) rows) x _ D DI) _).
    - intros p' q' x' H1 H2. apply rdft1_eff; assumption.
    - refine (eff_val _ _ _ _ _ _ _ _ _ _ (lines_ip (-1) q (fun r => off r ors) ocs (rows / 2 + 1) cols _ D) _).
      intros [u v] [Hu Hv]. f_equal. cbn [fst snd]. rewrite <- DFT2_cr. apply DFT_ext. intros c Hc. apply NR.
  Qed.
  Lemma disj_swp {p irs ics q ors ocs} n l n' l' : disj (ix2 n l) p (at2 irs ics) (ix2 n' l') q (at2 ors ocs) ->
    disj (ix2 l n) p (at2 ics irs) (ix2 l' n') q (at2 ocs ors).
  Proof.
    intros DI [c r] [c' r'] [Hc Hr] [Hc' Hr']. pose proof (DI (r, c) (r', c') (conj Hr Hc) (conj Hr' Hc')) as X.
    rewrite <- (at2_swp ors ocs), <- (at2_swp irs ics) in X. exact X.
  Qed.
  Lemma eff_swp op n l n' l' p irs ics x q ors ocs y y' : eff op (ix2 n l) p (at2 irs ics) (fun rc => x (swp rc)) (ix2 n' l') q (at2 ors ocs) y ->
    (forall r c, r < n' -> c < l' -> y (r, c) = y' (c, r)) ->
    eff op (ix2 l n) p (at2 ics irs) x (ix2 l' n') q (at2 ocs ors) y'.
  Proof.
    intros H Hy. refine (eff_reindex R _ _ _ _ _ _ _ _ _ _ _ _ _ _ _ H _ _ _).
    - intros [r c] [Hr Hc]. exists (c, r). repeat split; try assumption. exact (at2_swp irs ics (r, c)).
    - intros [r c] [Hr Hc]. exists (c, r). repeat split; try assumption. exact (at2_swp ors ocs (r, c)).
    - intros [c r] [Hc Hr]. exists (r, c). repeat split; try assumption; [exact (at2_swp ocs ors (c, r))|apply Hy; assumption].
  Qed.
  Lemma DFT2_swp e rows cols x u v : DFT2 R t e rows cols x u v = DFT2 R t e cols rows (fun c r => x r c) v u.
  Proof. rewrite <- DFT2_cr, <- DFT2_rc. reflexivity. Qed.
  Lemma rdft2_eff1 p irs ics q ors ocs rows cols x : nreal q -> dist (ix2 rows (cols / 2 + 1)) q (at2 ors ocs) ->
    disj (ix2 rows cols) p (at2 irs ics) (ix2 rows (cols / 2 + 1)) q (at2 ors ocs) ->
    eff (rdft2 R t 1 p irs ics q ors ocs rows cols) (ix2 rows cols) p (at2 irs ics) x
      (ix2 rows (cols / 2 + 1)) q (at2 ors ocs) (fun rc => DFT2 R t (-1) rows cols (fun r c => x (r, c)) (fst rc) (snd rc)).
  Proof.
    intros NR D DI.
    refine (eff_swp _ cols rows (cols / 2 + 1) rows p ics irs x q ocs ors _ _ (rdft2_eff0 p ics irs q ocs ors cols rows _ NR (dist_swp _ _ _ _ _ D) (disj_swp _ _ _ _ DI)) _).
    intros r c Hr Hc. cbn [fst snd]. rewrite DFT2_swp. reflexivity.
  Qed.

  (** Through the temporary array. *)
  Lemma eff_tmp {J L K} (op1 op2 : st -> option st) N (dJ : J -> Prop) p a x (dL : L -> Prop) bt y (dK : K -> Prop) q b z :
    ntmp p -> ntmp q ->
    eff op1 dJ p a x dL (Tmp 0) bt y -> eff op2 dL (Tmp 0) bt y dK q b z ->
    (forall l, dL l -> 0 <= bt l < Z.of_nat N)%Z ->
    eff (fun m => m1 <- op1 (tmp_alloc R N m);; m2 <- op2 m1;; Some (tmp_free R m m2)) dJ p a x dK q b z.
  Proof.
    intros Np Nq H1 H2 HB m I W.
    assert (TC : forall q' i c, ntmp q' -> In c (cells q' i) -> match c with TCell _ => False | _ => True end).
    { intros q' i c Hq Hc. destruct q'; cbn [cells In] in Hc; try contradiction; destruct Hc as [<-|Hc]; try exact Logic.I; try contradiction. destruct Hc as [<-|[]]; exact Logic.I. }
    destruct (H1 (tmp_alloc R N m)) as (m1 & E1 & G1 & F1 & L1).
    - intros j Dj. rewrite <- (I j Dj). apply get_frame. intros c Hc. pose proof (TC _ _ _ Np Hc). destruct c; try contradiction; reflexivity.
    - intros l Dl. split; [constructor; [intros []|constructor]|]. intros c [<-|[]]. cbn [alive tmp_alloc tm]. specialize (HB l Dl).
      destruct (Z.leb_spec 0 (0 + bt l)); [|lia]. destruct (Z.ltb_spec (0 + bt l) (Z.of_nat N)); [discriminate|lia].
    - destruct (H2 m1 G1) as (m2 & E2 & G2 & F2 & L2).
      + intros k Dk. destruct (W k Dk) as [ND A]. split; [exact ND|]. intros c Hc. apply L1. specialize (A c Hc). pose proof (TC _ _ _ Nq Hc). destruct c; try contradiction; exact A.
      + exists (tmp_free R m m2). rewrite E1. cbn [bind]. rewrite E2. cbn [bind]. split; [reflexivity|]. split; [|split].
        * intros k Dk. rewrite <- (G2 k Dk). apply get_frame. intros c Hc. pose proof (TC _ _ _ Nq Hc). destruct c; try contradiction; reflexivity.
        * intros c Hc. destruct c as [u|u|u]; [| |reflexivity].
          -- transitivity (peek R m2 (RCell u)); [reflexivity|]. rewrite F2 by exact Hc. rewrite F1; [reflexivity|]. intros l Dl [X|[]]. discriminate X.
          -- transitivity (peek R m2 (CCell u)); [reflexivity|]. rewrite F2 by exact Hc. rewrite F1; [reflexivity|]. intros l Dl [X|[]]. discriminate X.
        * intros c A. destruct c as [u|u|u]; [| |exact A].
          -- apply (L2 (RCell u)), L1. exact A.
          -- apply (L2 (CCell u)), L1. exact A.
  Qed.

  Lemma tmp_dist {K} (dK : K -> Prop) b : (forall k k', dK k -> dK k' -> b k = b k' -> k = k') -> dist dK (Tmp 0) b.
  Proof. intros H k k' D D' N c [<-|[]] [X|[]]. injection X as X. apply N, H; [exact D|exact D'|lia]. Qed.
  Lemma tmp_disj1 {J K} (dJ : J -> Prop) p a (dK : K -> Prop) b : ntmp p -> disj dJ p a dK (Tmp 0) b.
  Proof. intros N j k Dj Dk c [<-|[]] X. destruct p; cbn [cells In] in X; try contradiction; destruct X as [X|X]; try discriminate X; try contradiction. destruct X as [X|[]]; discriminate X. Qed.
  Lemma tmp_disj2 {J K} (dJ : J -> Prop) a (dK : K -> Prop) q b : ntmp q -> disj dJ (Tmp 0) a dK q b.
  Proof. intros N j k Dj Dk c X [<-|[]]. destruct q; cbn [cells In] in X; try contradiction; destruct X as [X|X]; try discriminate X; try contradiction. destruct X as [X|[]]; discriminate X. Qed.
  Lemma grid_inj (c : nat) r r' k k' : k < c -> k' < c -> (r * c + k = r' * c + k')%nat -> r = r' /\ k = k'.
  Proof.
    intros Hk Hk' E. assert (Er : r = r').
    { assert ((r * c + k) / c = (r' * c + k') / c) as X by (rewrite E; reflexivity).
      rewrite !Nat.div_add_l in X by lia. rewrite !Nat.div_small in X by assumption. lia. }
    subst r'. split; [reflexivity|lia].
  Qed.

  Notation herm := (herm R).
  (** What a complex-to-real transform computes: invert along the other axis,
      then transform the Hermitian extension along the axis. *)
  Lemma crdft2_eff0 p irs ics q ors ocs rows cols x : ntmp p -> ntmp q -> (forall r, r < rows / 2 + 1 -> int_ok p (off r irs)) ->
    dist (ix2 rows cols) q (at2 ors ocs) ->
    eff (crdft2 R t 0 p irs ics q ors ocs rows cols) (ix2 (rows / 2 + 1) cols) p (at2 irs ics) x
      (ix2 rows cols) q (at2 ors ocs) (fun rc => DFT 1 rows (herm rows (fun r => DFT 1 cols (fun c => x (r, c)) (snd rc))) (fst rc)).
  Proof.
    intros Np Nq IO D. unfold crdft2. cbn [Nat.eqb].
    refine (eff_tmp _ _ (( rows / 2 + 1) * cols) (ix2 (rows / 2 + 1) cols) p (at2 irs ics) x (ix2 (rows / 2 + 1) cols) (at2 (Z.of_nat cols) 1)
      (fun rc => DFT 1 cols (fun c => x (fst rc, c)) (snd rc)) _ _ _ _ Np Nq _ _ _).
    - refine (eff_ext R (loop (fun r m => dft1_out_of_place R t 1 (padd p (off r irs)) ics (padd (Tmp 0) (off r (Z.of_nat cols))) 1 cols m) 0 (rows / 2 + 1)) _ _ _ _ _ _ _ _ _ _ _).
      { intros m. apply loop_ext. intros r m' Hr. rewrite poff_padd by (apply IO; lia). reflexivity. }
      apply (rows_oop (fun p' q' m => dft1_out_of_place R t 1 p' ics q' 1 cols m) p irs ics (Tmp 0) (Z.of_nat cols) 1 (rows / 2 + 1) cols cols (DFT 1 cols)).
      + intros p' q' x' H1 H2. apply dft1_oop_eff; assumption.
      + apply tmp_dist. intros [r c] [r' c'] [Hr Hc] [Hr' Hc'] E. unfold at2, off in E. cbn [fst snd] in *.
        destruct (grid_inj cols r r' c c' Hc Hc' ltac:(lia)) as [-> ->]. reflexivity.
      + apply tmp_disj1, Np.
    - refine (eff_ext R (loop (fun c m => crdft1 R t (padd (Tmp 0) (off c 1)) (Z.of_nat cols) (padd q (off c ocs)) ors rows m) 0 cols) _ _ _ _ _ _ _ _ _ _ _).
      { intros m. apply loop_ext. intros c m' Hc. unfold off at 1. rewrite Z.mul_1_r. reflexivity. }
      apply (cols_oop (fun p' q' m => crdft1 R t p' (Z.of_nat cols) q' ors rows m) (Tmp 0) (Z.of_nat cols) 1 q ors ocs (rows / 2 + 1) rows cols (fun x => DFT 1 rows (herm rows x)) (fun rc => DFT 1 cols (fun c => x (fst rc, c)) (snd rc))).
      + intros p' q' x' H1 H2. apply crdft1_eff; assumption.
      + exact D.
      + apply tmp_disj2, Nq.
    - intros [r c] [Hr Hc]. cbn [fst snd] in *. unfold at2, off. cbn [fst snd]. nia.
  Qed.
  Lemma crdft2_eff1 p irs ics q ors ocs rows cols x : ntmp p -> ntmp q -> (forall c, c < cols / 2 + 1 -> int_ok p (off c ics)) ->
    dist (ix2 rows cols) q (at2 ors ocs) ->
    eff (crdft2 R t 1 p irs ics q ors ocs rows cols) (ix2 rows (cols / 2 + 1)) p (at2 irs ics) x
      (ix2 rows cols) q (at2 ors ocs) (fun rc => DFT 1 cols (herm cols (fun c => DFT 1 rows (fun r => x (r, c)) (fst rc))) (snd rc)).
  Proof.
    intros Np Nq IO D.
    assert (E : forall m, crdft2 R t 0 p ics irs q ocs ors cols rows m = crdft2 R t 1 p irs ics q ors ocs rows cols m).
    { intros m. unfold crdft2. cbn [Nat.eqb]. rewrite (Nat.mul_comm rows). reflexivity. }
    refine (eff_ext R _ _ _ _ _ _ _ _ _ _ E _).
    refine (eff_swp _ (cols / 2 + 1) rows cols rows p ics irs x q ocs ors _ _ (crdft2_eff0 p ics irs q ocs ors cols rows _ Np Nq IO (dist_swp _ _ _ _ _ D)) _).
    intros r c Hr Hc. reflexivity.
  Qed.
End Multi.
