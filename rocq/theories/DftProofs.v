(** Proofs about the generic Fourier-transform backend. *)
From Coq Require Import ZArith List Bool Arith Lia Ring.
From Verif Require Import Base Dft.
Import ListNotations.
Local Open Scope nat_scope.

Lemma loop_inv' {S} (f : nat -> S -> option S) (P : nat -> S -> Prop) n i s :
  (forall j t, i <= j < i + n -> P j t -> exists t', f j t = Some t' /\ P (Datatypes.S j) t') -> P i s ->
  exists s', loop f i n s = Some s' /\ P (i + n) s'.
Proof.
  intros H H0. apply (loop_inv f P n i s H0). intros j t Hj Pj. destruct (H j t Hj Pj) as (t' & E & Q). exists t'. rewrite Nat.add_1_r. split; assumption.
Qed.

Section Eff.
  Context (R : CRing).
  Add Ring Rr : (r_th R).
  Add Ring Cc : (r_th (Cr R)).
  Notation st := (st R). Notation cpx := (Cr R).
  Implicit Types (m : st) (p q : ptr).

  (** All cells, the temporary included. *)
  Definition peek m (c : cell) : option cpx + option R + option (option cpx) :=
    match c with RCell a => inl (inr (rm _ m a)) | CCell a => inl (inl (cm _ m a)) | TCell a => inr (tm _ m a) end.
  Definition alive m (c : cell) : Prop :=
    match c with RCell a => rm _ m a <> None | CCell a => cm _ m a <> None | TCell a => tm _ m a <> None end.
  Definition wr m q i : Prop := NoDup (cells q i) /\ forall c, In c (cells q i) -> alive m c.
  Lemma writable_wr m q i : writable R m q i <-> wr m q i.
  Proof.
    unfold writable, wr. destruct q as [p|p|a b|p]; cbn [cells]; split; intros [N H]; (split; [exact N|]).
    - intros c [<-|[]]. exact H.
    - exact (H _ (or_introl eq_refl)).
    - intros c [<-|[]]. exact H.
    - exact (H _ (or_introl eq_refl)).
    - intros c [<-|[<-|[]]]; apply H.
    - split; [exact (H _ (or_introl eq_refl))|exact (H _ (or_intror (or_introl eq_refl)))].
    - intros c [<-|[]]. exact H.
    - exact (H _ (or_introl eq_refl)).
  Qed.

  Lemma get_padd m q o i : get R m (padd q o) i = get R m q (o + i).
  Proof. destruct q; cbn [padd get]; rewrite ?Z.add_assoc; reflexivity. Qed.
  Lemma put_padd m q o i v : put R m (padd q o) i v = put R m q (o + i) v.
  Proof. destruct q; cbn [padd put]; rewrite ?Z.add_assoc; reflexivity. Qed.
  Lemma cells_padd q o i : cells (padd q o) i = cells q (o + i).
  Proof. destruct q; cbn [padd cells]; rewrite ?Z.add_assoc; reflexivity. Qed.
  Lemma as_stored_padd q o v : as_stored R (padd q o) v = as_stored R q v.
  Proof. destruct q; reflexivity. Qed.

  Lemma get_frame m m' q i : (forall c, In c (cells q i) -> peek m' c = peek m c) -> get R m' q i = get R m q i.
  Proof.
    intros H. destruct q; cbn [cells get] in *; unfold mload.
    - specialize (H _ (or_introl eq_refl)). cbn in H. injection H as ->. reflexivity.
    - specialize (H _ (or_introl eq_refl)). cbn in H. injection H as ->. reflexivity.
    - pose proof (H _ (or_introl eq_refl)) as H1. pose proof (H _ (or_intror (or_introl eq_refl))) as H2. cbn in H1, H2.
      injection H1 as ->. injection H2 as ->. reflexivity.
    - specialize (H _ (or_introl eq_refl)). cbn in H. injection H as ->. reflexivity.
  Qed.
  Lemma wr_alive m m' q i : (forall c, alive m c -> alive m' c) -> wr m q i -> wr m' q i.
  Proof. intros H [N W]. split; [exact N|]. intros c I. apply H, W, I. Qed.

  Lemma put_ok m q i v : wr m q i -> exists m', put R m q i v = Some m' /\ get R m' q i = Some (as_stored R q v) /\
    (forall c, ~ In c (cells q i) -> peek m' c = peek m c) /\ (forall c, alive m c -> alive m' c).
  Proof.
    intros [N W]. destruct q; cbn [cells put] in *.
    - pose proof (W _ (or_introl eq_refl)) as A. cbn [alive] in A. unfold mstore. destruct (rm _ m (p + i)%Z) eqn:E; [|congruence].
      cbn [bind]. eexists. split; [reflexivity|]. cbn [get rm cm tm as_stored]. unfold mload, mupd. rewrite Z.eqb_refl. cbn [bind].
      split; [reflexivity|]. split.
      + intros [a|a|a] H; cbn [peek rm cm tm]; try reflexivity. destruct (Z.eqb_spec a (p + i)) as [X|X]; [|reflexivity]. exfalso. apply H. left. congruence.
      + intros [a|a|a] H; cbn [alive rm cm tm] in *; try exact H. destruct (Z.eqb_spec a (p + i)) as [X|X]; [discriminate|exact H].
    - pose proof (W _ (or_introl eq_refl)) as A. cbn [alive] in A. unfold mstore. destruct (cm _ m (p + i)%Z) eqn:E; [|congruence].
      cbn [bind]. eexists. split; [reflexivity|]. cbn [get rm cm tm as_stored]. unfold mload, mupd. rewrite Z.eqb_refl.
      split; [reflexivity|]. split.
      + intros [a|a|a] H; cbn [peek rm cm tm]; try reflexivity. destruct (Z.eqb_spec a (p + i)) as [X|X]; [|reflexivity]. exfalso. apply H. left. congruence.
      + intros [a|a|a] H; cbn [alive rm cm tm] in *; try exact H. destruct (Z.eqb_spec a (p + i)) as [X|X]; [discriminate|exact H].
    - pose proof (W _ (or_introl eq_refl)) as A. pose proof (W _ (or_intror (or_introl eq_refl))) as B. cbn [alive] in A, B. unfold mstore.
      assert (D : (a + i <> b + i)%Z) by (intros X; inversion N as [|? ? N1 _]; apply N1; left; congruence).
      destruct (rm _ m (a + i)%Z) eqn:E; [|congruence]. cbn [bind]. unfold mupd at 1.
      destruct (Z.eqb_spec (b + i) (a + i)) as [X|X]; [congruence|].
      destruct (rm _ m (b + i)%Z) eqn:E2; [|congruence]. cbn [bind].
      eexists. split; [reflexivity|]. cbn [get rm cm tm as_stored]. unfold mload, mupd. rewrite Z.eqb_refl.
      destruct (Z.eqb_spec (a + i) (b + i)) as [Y|_]; [congruence|]. rewrite Z.eqb_refl. cbn [bind].
      split; [destruct v; reflexivity|]. split.
      + intros [u|u|u] H; cbn [peek rm cm tm]; try reflexivity.
        destruct (Z.eqb_spec u (b + i)) as [Y|Y]; [exfalso; apply H; right; left; congruence|].
        destruct (Z.eqb_spec u (a + i)) as [Y'|Y']; [exfalso; apply H; left; congruence|]. reflexivity.
      + intros [u|u|u] H; cbn [alive rm cm tm] in *; try exact H.
        destruct (Z.eqb_spec u (b + i)) as [Y|Y]; [discriminate|]. destruct (Z.eqb_spec u (a + i)) as [Y'|Y']; [discriminate|exact H].
    - pose proof (W _ (or_introl eq_refl)) as A. cbn [alive] in A. unfold mstore. destruct (tm _ m (p + i)%Z) eqn:E; [|congruence].
      cbn [bind]. eexists. split; [reflexivity|]. cbn [get rm cm tm as_stored]. unfold mload, mupd. rewrite Z.eqb_refl.
      split; [reflexivity|]. split.
      + intros [a|a|a] H; cbn [peek rm cm tm]; try reflexivity. destruct (Z.eqb_spec a (p + i)) as [X|X]; [|reflexivity]. exfalso. apply H. left. congruence.
      + intros [a|a|a] H; cbn [alive rm cm tm] in *; try exact H. destruct (Z.eqb_spec a (p + i)) as [X|X]; [discriminate|exact H].
  Qed.

  (** Effect of an operation: from inputs [x] at [p + a j] it leaves [y] at
      [q + b k], and changes no other cell. *)
  Definition eff {J K} (op : st -> option st) (dJ : J -> Prop) p (a : J -> Z) (x : J -> cpx)
    (dK : K -> Prop) q (b : K -> Z) (y : K -> cpx) : Prop :=
    forall m, (forall j, dJ j -> get R m p (a j) = Some (x j)) -> (forall k, dK k -> wr m q (b k)) ->
      exists m', op m = Some m' /\ (forall k, dK k -> get R m' q (b k) = Some (as_stored R q (y k))) /\
        (forall c, (forall k, dK k -> ~ In c (cells q (b k))) -> peek m' c = peek m c) /\
        (forall c, alive m c -> alive m' c).

  Lemma eff_ext {J K} op op' (dJ : J -> Prop) p a x (dK : K -> Prop) q b y :
    (forall m, op m = op' m) -> eff op dJ p a x dK q b y -> eff op' dJ p a x dK q b y.
  Proof. intros E H m I W. destruct (H m I W) as (m' & X). exists m'. rewrite <- E. exact X. Qed.

  Lemma eff_reindex {J K J' K'} op (dJ : J -> Prop) p a x (dK : K -> Prop) q b y
    (dJ' : J' -> Prop) a' x' (dK' : K' -> Prop) b' y' :
    eff op dJ p a x dK q b y ->
    (forall j, dJ j -> exists j', dJ' j' /\ a' j' = a j /\ x' j' = x j) ->
    (forall k, dK k -> exists k', dK' k' /\ b' k' = b k) ->
    (forall k', dK' k' -> exists k, dK k /\ b k = b' k' /\ y k = y' k') ->
    eff op dJ' p a' x' dK' q b' y'.
  Proof.
    intros H HJ HK HK' m I W. destruct (H m) as (m' & E & G & F & L).
    - intros j Dj. destruct (HJ j Dj) as (j' & D' & <- & <-). apply I, D'.
    - intros k Dk. destruct (HK k Dk) as (k' & D' & <-). apply W, D'.
    - exists m'. split; [exact E|]. split; [|split; [|exact L]].
      + intros k' D'. destruct (HK' k' D') as (k & Dk & <- & <-). apply G, Dk.
      + intros c Hc. apply F. intros k Dk. destruct (HK k Dk) as (k' & D' & <-). apply Hc, D'.
  Qed.

  (** A second operation that rewrites the whole output in place. *)
  Lemma eff_then {J K} op1 op2 (dJ : J -> Prop) p a x (dK : K -> Prop) q b y z :
    eff op1 dJ p a x dK q b y -> eff op2 dK q b (fun k => as_stored R q (y k)) dK q b z ->
    eff (fun m => m1 <- op1 m;; op2 m1) dJ p a x dK q b z.
  Proof.
    intros H1 H2 m I W. destruct (H1 m I W) as (m1 & E1 & G1 & F1 & L1).
    destruct (H2 m1 G1 (fun k D => wr_alive _ _ _ _ L1 (W k D))) as (m2 & E2 & G2 & F2 & L2).
    exists m2. rewrite E1. cbn [bind]. split; [exact E2|]. split; [exact G2|]. split.
    - intros c Hc. rewrite F2 by exact Hc. apply F1, Hc.
    - intros c A. apply L2, L1, A.
  Qed.

  (** A family of operations on disjoint outputs. *)
  Lemma eff_loop {J K} (f : nat -> st -> option st) n (dJ : J -> Prop) p (a : nat -> J -> Z) (x : nat -> J -> cpx)
    (dK : K -> Prop) q (b : nat -> K -> Z) (y : nat -> K -> cpx) :
    (forall i, i < n -> eff (f i) dJ p (a i) (x i) dK q (b i) (y i)) ->
    (forall i j k k', i < n -> j < n -> i <> j -> dK k -> dK k' -> apart q (b i k) q (b j k')) ->
    (forall i j k k', i < n -> j < n -> i <> j -> dK k -> dJ k' -> apart q (b i k) p (a j k')) ->
    eff (loop f 0 n) (fun ij => fst ij < n /\ dJ (snd ij)) p (fun ij => a (fst ij) (snd ij)) (fun ij => x (fst ij) (snd ij))
      (fun ij => fst ij < n /\ dK (snd ij)) q (fun ij => b (fst ij) (snd ij)) (fun ij => y (fst ij) (snd ij)).
  Proof.
    intros H HO HI m I W.
    destruct (loop_inv' f (fun i m' =>
       (forall j k, j < i -> dK k -> get R m' q (b j k) = Some (as_stored R q (y j k))) /\
       (forall c, (forall j k, j < i -> dK k -> ~ In c (cells q (b j k))) -> peek m' c = peek m c) /\
       (forall c, alive m c -> alive m' c)) n 0 m) as (m' & E & G & F & L).
    - intros i m0 [_ Hi] (G & F & L). cbn [Nat.add] in Hi.
      destruct (H i Hi m0) as (m1 & E1 & G1 & F1 & L1).
      + intros j Dj. rewrite (get_frame m m0); [apply (I (i, j)); split; assumption|].
        intros c Hc. apply F. intros j' k Hj' Dk X. exact (HI j' i k j ltac:(lia) Hi ltac:(lia) Dk Dj c X Hc).
      + intros k Dk. apply (wr_alive m m0); [exact L|]. apply (W (i, k)). split; assumption.
      + exists m1. split; [exact E1|]. split; [|split].
        * intros j k Hj Dk. destruct (Nat.eq_dec j i) as [Ej|Nj]; [subst j; apply G1, Dk|].
          rewrite (get_frame m0 m1); [apply G; [lia|exact Dk]|].
          intros c Hc. apply F1. intros k' Dk' X. exact (HO i j k' k Hi ltac:(lia) ltac:(lia) Dk' Dk c X Hc).
        * intros c Hc. rewrite F1 by (intros k Dk; apply Hc; [lia|exact Dk]). apply F. intros j k Hj Dk. apply Hc; [lia|exact Dk].
        * intros c A. apply L1, L, A.
    - split; [intros; lia|]. split; [reflexivity|]. intros c A. exact A.
    - exists m'. split; [exact E|]. split; [|split; [|exact L]].
      + intros [i k] [Hi Dk]. apply G; [exact Hi|exact Dk].
      + intros c Hc. apply F. intros j k Hj Dk. apply (Hc (j, k)). split; assumption.
  Qed.

  (** A loop that computes a value from unchanging inputs and stores it. *)
  Lemma eff_store {J} (g : nat -> st -> option cpx) n (dJ : J -> Prop) p a x q (b : nat -> Z) y :
    (forall w m, w < n -> (forall j, dJ j -> get R m p (a j) = Some (x j)) -> g w m = Some (y w)) ->
    (forall w w', w < n -> w' < n -> w <> w' -> apart q (b w) q (b w')) ->
    (forall w j, w < n -> dJ j -> apart q (b w) p (a j)) ->
    eff (loop (fun w m => v <- g w m;; put R m q (b w) v) 0 n) dJ p a x (fun w => w < n) q b y.
  Proof.
    intros Hg HO HI m I W.
    destruct (loop_inv' (fun w m => v <- g w m;; put R m q (b w) v) (fun i m' =>
       (forall j, j < i -> get R m' q (b j) = Some (as_stored R q (y j))) /\
       (forall c, (forall j, j < i -> ~ In c (cells q (b j))) -> peek m' c = peek m c) /\
       (forall c, alive m c -> alive m' c)) n 0 m) as (m' & E & G & F & L).
    - intros i m0 [_ Hi] (G & F & L). cbn [Nat.add] in Hi.
      rewrite (Hg i m0 Hi). 2:{ intros j Dj. rewrite (get_frame m m0); [apply I, Dj|].
        intros c Hc. apply F. intros j' Hj' X. exact (HI j' j ltac:(lia) Dj c X Hc). }
      cbn [bind]. destruct (put_ok m0 q (b i) (y i) (wr_alive m m0 _ _ L (W i Hi))) as (m1 & E1 & G1 & F1 & L1).
      exists m1. split; [exact E1|]. split; [|split].
      + intros j Hj. destruct (Nat.eq_dec j i) as [Ej|Nj]; [subst j; exact G1|].
        rewrite (get_frame m0 m1); [apply G; lia|]. intros c Hc. apply F1. intros X. exact (HO i j Hi ltac:(lia) ltac:(lia) c X Hc).
      + intros c Hc. rewrite F1 by (apply Hc; lia). apply F. intros j Hj. apply Hc. lia.
      + intros c A. apply L1, L, A.
    - split; [intros; lia|]. split; [reflexivity|]. intros c A. exact A.
    - exists m'. split; [exact E|]. split; [|split; [|exact L]]; cbn [Nat.add] in *; [exact G|exact F].
  Qed.

  Context (t : trig R).
  Lemma inner_ok e l q s w n m (x : nat -> cpx) : (forall k, k < n -> get R m q (Z.of_nat k * s)%Z = Some (x k)) ->
    inner R t e l q s w n m = Some (sum (fun k => x k * sin_cos R t l (e * Z.of_nat k * Z.of_nat w)%Z)%cr n).
  Proof.
    intros H. unfold inner.
    match goal with |- loop ?F _ _ _ = _ => destruct (loop_inv' F (fun i a => a = sum (fun k => x k * sin_cos R t l (e * Z.of_nat k * Z.of_nat w)%Z)%cr i) n 0 (0%cr : cpx)) as (v & E & V) end.
    - intros i a [_ Hi] ->. cbn [Nat.add] in Hi. rewrite H by exact Hi. cbn [bind]. eexists. split; [reflexivity|]. reflexivity.
    - reflexivity.
    - rewrite E, V. reflexivity.
  Qed.

  Notation herm := (herm R).
  Notation DFT := (DFT R t).
  Lemma dft1_oop_eff e p sp q sq l x :
    (forall w w', w < l -> w' < l -> w <> w' -> apart q (Z.of_nat w * sq) q (Z.of_nat w' * sq)) ->
    (forall w k, w < l -> k < l -> apart q (Z.of_nat w * sq) p (Z.of_nat k * sp)) ->
    eff (dft1_out_of_place R t e p sp q sq l) (fun k => k < l) p (fun k => Z.of_nat k * sp)%Z x (fun k => k < l) q (fun k => Z.of_nat k * sq)%Z (DFT e l x).
  Proof.
    intros HO HI. unfold dft1_out_of_place.
    apply (eff_store (fun w m' => inner R t e l p sp w l m') l (fun k => k < l) p (fun k => Z.of_nat k * sp)%Z x q (fun k => Z.of_nat k * sq)%Z); [|exact HO|exact HI].
    intros w m Hw I. exact (inner_ok e l p sp w l m x I).
  Qed.
  Lemma rdft1_eff p sp q sq l x :
    (forall w w', w < l / 2 + 1 -> w' < l / 2 + 1 -> w <> w' -> apart q (Z.of_nat w * sq) q (Z.of_nat w' * sq)) ->
    (forall w k, w < l / 2 + 1 -> k < l -> apart q (Z.of_nat w * sq) p (Z.of_nat k * sp)) ->
    eff (rdft1 R t p sp q sq l) (fun k => k < l) p (fun k => Z.of_nat k * sp)%Z x (fun k => k < l / 2 + 1) q (fun k => Z.of_nat k * sq)%Z (DFT (-1) l x).
  Proof.
    intros HO HI. unfold rdft1.
    apply (eff_store (fun w m' => inner R t (-1) l p sp w l m') (l / 2 + 1) (fun k => k < l) p (fun k => Z.of_nat k * sp)%Z x q (fun k => Z.of_nat k * sq)%Z); [|exact HO|exact HI].
    intros w m Hw I. exact (inner_ok (-1) l p sp w l m x I).
  Qed.
  Lemma crdft1_eff p sp q sq l x :
    (forall w w', w < l -> w' < l -> w <> w' -> apart q (Z.of_nat w * sq) q (Z.of_nat w' * sq)) ->
    (forall w k, w < l -> k < l / 2 + 1 -> apart q (Z.of_nat w * sq) p (Z.of_nat k * sp)) ->
    eff (crdft1 R t p sp q sq l) (fun k => k < l / 2 + 1) p (fun k => Z.of_nat k * sp)%Z x (fun k => k < l) q (fun k => Z.of_nat k * sq)%Z (DFT 1 l (herm l x)).
  Proof.
    intros HO HI. unfold crdft1.
    set (g := fun w m' => a <- inner R t 1 l p sp w (l / 2 + 1) m';;
      loop (fun k (acc : cpx) => x <- get R m' p (Z.of_nat (l - k) * sp)%Z;;
            Some (acc + cconj R x * sin_cos R t l (1 * Z.of_nat k * Z.of_nat w)%Z)%cr) (l / 2 + 1) (l - (l / 2 + 1)) a).
    assert (X : eff (loop (fun w m' => v <- g w m';; put R m' q (Z.of_nat w * sq)%Z v) 0 l) (fun k => k < l / 2 + 1) p (fun k => Z.of_nat k * sp)%Z x (fun k => k < l) q (fun k => Z.of_nat k * sq)%Z (DFT 1 l (herm l x))).
    { apply (eff_store g l (fun k => k < l / 2 + 1) p (fun k => Z.of_nat k * sp)%Z x q (fun k => Z.of_nat k * sq)%Z); [|exact HO|exact HI].
      intros w m Hw I. unfold g. rewrite (inner_ok 1 l p sp w (l / 2 + 1) m x I). cbn [bind].
      assert (Hl : l / 2 + 1 <= l). { assert (l / 2 < l) by (apply Nat.div_lt; lia). lia. }
      match goal with |- loop ?F _ _ _ = _ => destruct (loop_inv' F (fun i a => a = sum (fun k => herm l x k * sin_cos R t l (1 * Z.of_nat k * Z.of_nat w)%Z)%cr i) (l - (l / 2 + 1)) (l / 2 + 1)
        (sum (fun k => x k * sin_cos R t l (1 * Z.of_nat k * Z.of_nat w)%Z)%cr (l / 2 + 1))) as (v & E & V) end.
      - intros i a [Hi1 Hi] ->.
        assert (Hk : l - i < l / 2 + 1). { pose proof (Nat.div_mod l 2 ltac:(lia)) as D. pose proof (Nat.mod_upper_bound l 2 ltac:(lia)). lia. }
        rewrite I by exact Hk. cbn [bind]. eexists. split; [reflexivity|]. cbn [sum]. f_equal. f_equal. unfold Dft.herm.
        destruct (Nat.leb_spec i (l / 2)) as [Y|Y]; [lia|reflexivity].
      - apply (sum_ext (Cr R)). intros k Hk. unfold Dft.herm. destruct (Nat.leb_spec k (l / 2)) as [Y|Y]; [reflexivity|lia].
      - rewrite E, V. replace (l / 2 + 1 + (l - (l / 2 + 1))) with l by lia. reflexivity. }
    refine (eff_ext _ _ _ _ _ _ _ _ _ _ _ X). intros m. apply loop_ext. intros w m' _. unfold g.
    destruct (inner R t 1 l p sp w (l / 2 + 1) m'); reflexivity.
  Qed.

  Lemma dft1_ip_eff e q s l x :
    (forall w w', w < l -> w' < l -> w <> w' -> apart q (Z.of_nat w * s) q (Z.of_nat w' * s)) ->
    eff (dft1_in_place R t e q s l) (fun k => k < l) q (fun k => Z.of_nat k * s)%Z x (fun k => k < l) q (fun k => Z.of_nat k * s)%Z (DFT e l x).
  Proof.
    intros HO m I W. unfold dft1_in_place.
    match goal with |- context [loop ?F 0 l (repeat None l)] =>
      destruct (loop_inv' F (fun i tmp => length tmp = l /\ forall k, k < i -> nth_error tmp k = Some (Some (DFT e l x k))) l 0 (repeat None l)) as (tmp & E & Hlen & Ht) end.
    - intros i tmp [_ Hi] [Hl Ht]. cbn [Nat.add] in Hi. rewrite (inner_ok e l q s i l m x I). cbn [bind].
      rewrite bput_some by lia. eexists. split; [reflexivity|]. split; [rewrite lset_length; exact Hl|].
      intros k Hk. rewrite lset_nth. destruct (Nat.eqb_spec k i) as [X|X]; [subst k; destruct (i <? length tmp) eqn:Y; [reflexivity|apply Nat.ltb_ge in Y; lia]|apply Ht; lia].
    - split; [apply repeat_length|intros; lia].
    - rewrite E. cbn [bind Nat.add] in *.
      assert (X : eff (loop (fun w m' => v <- (c <- bget tmp w;; c);; put R m' q (Z.of_nat w * s)%Z v) 0 l) (fun _ : nat => False) q (fun k => Z.of_nat k * s)%Z x (fun k => k < l) q (fun k => Z.of_nat k * s)%Z (DFT e l x)).
      { apply (eff_store (fun w _ => c <- bget tmp w;; c) l (fun _ : nat => False) q (fun k => Z.of_nat k * s)%Z x q (fun k => Z.of_nat k * s)%Z); [|exact HO|intros; contradiction].
        intros w m0 Hw _. unfold bget. rewrite Ht by exact Hw. reflexivity. }
      destruct (X m ltac:(intros; contradiction) W) as (m' & E' & X'). exists m'. split; [|exact X'].
      rewrite <- E'. apply loop_ext. intros w m0 _. destruct (bget tmp w); reflexivity.
  Qed.
End Eff.
