(** Proofs about the Fourier transforms through C-VSIPL. *)
From Coq Require Import ZArith List Bool Arith Lia Ring.
From Verif Require Import Base Dft DftProofs DftMulti DftInv CVsipFft.
Import ListNotations.
Local Open Scope nat_scope.

Lemma rcell_inj a b : RCell a = RCell b -> a = b.
Proof. congruence. Qed.

Section P.
Context (R : CRing) (t : trig R).
Add Ring Rr : (r_th R).
Add Ring Cc : (r_th (Cr R)).
Notation st := (st R). Notation cpx := (Cr R).
Implicit Types (m : st) (p q : ptr).

Lemma get_rd m m' p i : ntmp p -> (forall c, In c (cells p i) -> rd R m' c = rd R m c) -> get R m' p i = get R m p i.
Proof.
  intros N H. apply get_frame. intros c Hc. specialize (H c Hc).
  destruct c as [a|a|a]; cbn [rd peek] in *; [injection H as ->; reflexivity|injection H as ->; reflexivity|].
  exfalso. destruct p; cbn [cells In ntmp] in *; try contradiction; destruct Hc as [X|Hc]; try discriminate X; try contradiction.
  destruct Hc as [X|[]]; discriminate X.
Qed.

Definition computesI {J K} (P : st -> Prop) (op : st -> option st) (dJ : J -> Prop) p a x (dK : K -> Prop) q b y : Prop :=
  forall m, P m -> holds R m dJ p a x -> room R m dK q b -> exists m', op m = Some m' /\ holds R m' dK q b y /\ only R m m' dK q b.
Definition mono (P : st -> Prop) : Prop := forall m m', (forall p i, writable R m p i -> writable R m' p i) -> P m -> P m'.

Lemma loop_computes {J K} P (f : nat -> st -> option st) n (dJ : J -> Prop) p (a : nat -> J -> Z) (x : nat -> J -> cpx)
    (dK : K -> Prop) q (b : nat -> K -> Z) (y : nat -> K -> cpx) : mono P -> ntmp p -> ntmp q ->
  (forall i, i < n -> computesI P (f i) dJ p (a i) (x i) dK q (b i) (y i)) ->
  (forall i j k k', i < n -> j < n -> i <> j -> dK k -> dK k' -> apart q (b i k) q (b j k')) ->
  (forall i j k k', i < n -> j < n -> i <> j -> dK k -> dJ k' -> apart q (b i k) p (a j k')) ->
  computesI P (loop f 0 n) (fun ij => fst ij < n /\ dJ (snd ij)) p (fun ij => a (fst ij) (snd ij)) (fun ij => x (fst ij) (snd ij))
    (fun ij => fst ij < n /\ dK (snd ij)) q (fun ij => b (fst ij) (snd ij)) (fun ij => y (fst ij) (snd ij)).
Proof.
  intros MP Np Nq H HO HI m Pm I W.
  destruct (loop_inv' f (fun i m' =>
     (forall j k, j < i -> dK k -> get R m' q (b j k) = Some (y j k)) /\
     (forall c, (forall j k, j < i -> dK k -> ~ In c (cells q (b j k))) -> rd R m' c = rd R m c) /\
     (forall p i, writable R m p i -> writable R m' p i)) n 0 m) as (m' & E & G & F & Wr).
  - intros i m0 [_ Hi] (G & F & Wr). cbn [Nat.add] in Hi.
    destruct (H i Hi m0) as (m1 & E1 & G1 & F1 & W1).
    + exact (MP m m0 Wr Pm).
    + intros j Dj. rewrite (get_rd m m0 _ _ Np); [apply (I (i, j)); split; assumption|].
      intros c Hc. apply F. intros j' k Hj' Dk X. exact (HI j' i k j ltac:(lia) Hi ltac:(lia) Dk Dj c X Hc).
    + intros k Dk. apply Wr. apply (W (i, k)). split; assumption.
    + exists m1. split; [exact E1|]. split; [|split].
      * intros j k Hj Dk. destruct (Nat.eq_dec j i) as [Ej|Nj]; [subst j; apply G1, Dk|].
        rewrite (get_rd m0 m1 _ _ Nq); [apply G; [lia|exact Dk]|].
        intros c Hc. apply F1. intros k' Dk' X. exact (HO i j k' k Hi ltac:(lia) ltac:(lia) Dk' Dk c X Hc).
      * intros c Hc. rewrite F1 by (intros k Dk; apply Hc; [lia|exact Dk]). apply F. intros j k Hj Dk. apply Hc; [lia|exact Dk].
      * intros p' i' A. apply W1, Wr, A.
  - split; [intros; lia|]. split; [reflexivity|]. intros p' i' A. exact A.
  - exists m'. split; [exact E|]. split; [|split].
    + intros [i k] [Hi Dk]. apply G; [exact Hi|exact Dk].
    + intros c Hc. apply F. intros j k Hj Dk. apply (Hc (j, k)). split; assumption.
    + exact Wr.
Qed.

Lemma computes_pair P op n l l' p a x q b y :
  computesI P op (fun ij => fst ij < n /\ ix1 l (snd ij)) p (fun ij : nat * nat => a (fst ij, snd ij)) (fun ij => x (fst ij, snd ij))
    (fun ij => fst ij < n /\ ix1 l' (snd ij)) q (fun ij : nat * nat => b (fst ij, snd ij)) (fun ij => y (fst ij, snd ij)) ->
  computesI P op (ix2 n l) p a x (ix2 n l') q b y.
Proof.
  intros H m Pm I W. destruct (H m Pm) as (m' & E & G & F & Wr).
  - intros [i j] [Hi Hj]. apply (I (i, j)). split; assumption.
  - intros [i j] [Hi Hj]. apply (W (i, j)). split; assumption.
  - exists m'. split; [exact E|]. split; [|split; [|exact Wr]].
    + intros [i j] [Hi Hj]. exact (G (i, j) (conj Hi Hj)).
    + intros c Hc. apply F. intros [i j] [Hi Hj]. exact (Hc (i, j) (conj Hi Hj)).
Qed.

Lemma computes_reindex {J K J' K'} op (dJ : J -> Prop) p a x (dK : K -> Prop) q b y
  (dJ' : J' -> Prop) a' x' (dK' : K' -> Prop) b' y' :
  computes R op dJ p a x dK q b y ->
  (forall j, dJ j -> exists j', dJ' j' /\ a' j' = a j /\ x' j' = x j) ->
  (forall k, dK k -> exists k', dK' k' /\ b' k' = b k) ->
  (forall k', dK' k' -> exists k, dK k /\ b k = b' k' /\ y k = y' k') ->
  computes R op dJ' p a' x' dK' q b' y'.
Proof.
  intros H HJ HK HK' m I W. destruct (H m) as (m' & E & G & F & Wr).
  - intros j Dj. destruct (HJ j Dj) as (j' & D' & <- & <-). apply I, D'.
  - intros k Dk. destruct (HK k Dk) as (k' & D' & <-). apply W, D'.
  - exists m'. split; [exact E|]. split; [|split; [|exact Wr]].
    + intros k' D'. destruct (HK' k' D') as (k & Dk & <- & <-). apply G, Dk.
    + intros c Hc. apply F. intros k Dk. destruct (HK k Dk) as (k' & D' & <-). apply Hc, D'.
Qed.

Lemma u64_id z : (0 <= z < 18446744073709551616)%Z -> u64 z = z.
Proof. intros H. apply Z.mod_small. exact H. Qed.

(** Views made by the wrappers. *)
Lemma usable_bound p o s n : 0 < n -> (0 <= o)%Z -> (0 <= s)%Z -> (o + (Z.of_nat n - 1) * s + 1 < 18446744073709551616)%Z -> usable (bound p o s n).
Proof.
  intros Hn Ho Hs Hb. split; [exact Hn|]. intros i Hi. unfold pos, bound in *. cbn [fv_off fv_st fv_size fv_len] in *.
  assert (X : (0 <= Z.of_nat i * s <= (Z.of_nat n - 1) * s)%Z) by (split; [apply Z.mul_nonneg_nonneg; lia|apply Z.mul_le_mono_nonneg_r; lia]).
  rewrite u64_id by lia. lia.
Qed.
Lemma usable_created n : 0 < n -> usable (created n).
Proof. intros Hn. split; [exact Hn|]. intros i Hi. unfold pos, created in *. cbn [fv_off fv_st fv_size fv_len] in *. lia. Qed.

Lemma cpx_cpx_side p : cpx_ptr p -> cpx_side p.
Proof. destruct p; cbn; tauto. Qed.
Lemma types_sides k p q : types_ok k p q -> sides_ok k p q.
Proof. destruct k; cbn; intros [H1 H2]; split; auto using cpx_cpx_side. Qed.
Lemma types_ntmp k p q : types_ok k p q -> ntmp p /\ ntmp q.
Proof. destruct k; cbn; intros [H1 H2]; split; first [apply cpx_ntmp; assumption|apply real_ntmp; assumption]. Qed.
Lemma ntmp_not q i : ntmp q -> forall c, In c (cells q i) -> match c with TCell _ => False | _ => True end.
Proof.
  intros Hq c Hc. destruct q; cbn [cells In] in Hc; try contradiction; destruct Hc as [<-|Hc]; try exact I; try contradiction. destruct Hc as [<-|[]]; exact I.
Qed.

Context (L : library R) (lax evn : bool) (D : documented R t L lax evn).

Lemma half_le n : 0 < n -> n / 2 + 1 <= n.
Proof. intros H. destruct n as [|[|n]]; [lia|cbn; lia|]. assert (S (S n) / 2 < S (S n)) by (apply Nat.div_lt; lia). lia. Qed.
Lemma half_fits n : 0 < n -> lax = true \/ n <= 2 -> fits lax (n / 2 + 1) n.
Proof.
  intros Hn H. unfold fits. destruct lax; [apply half_le, Hn|]. destruct H as [X|X]; [discriminate X|].
  destruct n as [|[|[|n]]]; [lia|reflexivity|reflexivity|lia].
Qed.

Lemma out_ok k e n sc p sp q sq len x :
  sign_ok k e -> 0 < n -> (k <> C2C -> evn = true -> Nat.even n = true) ->
  0 < len -> (0 <= sp)%Z -> (0 <= sq)%Z ->
  ((Z.of_nat len - 1) * sp + 1 < 18446744073709551616)%Z -> ((Z.of_nat len - 1) * sq + 1 < 18446744073709551616)%Z ->
  fits lax (in_size k n) len -> fits lax (out_size k n) len -> types_ok k p q ->
  dist (ix1 (out_size k n)) q (fun i => Z.of_nat i * sq)%Z ->
  disj (ix1 (in_size k n)) p (fun i => Z.of_nat i * sp)%Z (ix1 (out_size k n)) q (fun i => Z.of_nat i * sq)%Z ->
  computes R (fft_out R L k e n sc p sp q sq len) (ix1 (in_size k n)) p (fun i => Z.of_nat i * sp)%Z x
    (ix1 (out_size k n)) q (fun i => Z.of_nat i * sq)%Z (spectrum R t k e n sc x).
Proof.
  intros Se Hn Ev Hl H1 H2 B1 B2 F1 F2 T Di Dj. unfold fft_out.
  exact (doc_fft R t L lax evn D k e n sc (bound p 0 sp len) (bound q 0 sq len) x Se Hn Ev
    (usable_bound p 0 sp len Hl ltac:(lia) H1 ltac:(lia)) (usable_bound q 0 sq len Hl ltac:(lia) H2 ltac:(lia)) F1 F2 (types_sides k p q T) Di Dj).
Qed.

(** A transform into the library's vector and a copy back. *)
Lemma via_created e n sc q o s x : (e = 1 \/ e = -1)%Z -> 0 < n -> cpx_ptr q -> (0 <= o)%Z -> (0 <= s)%Z ->
  (o + (Z.of_nat n - 1) * s + 1 < 18446744073709551616)%Z ->
  dist (ix1 n) q (fun i => o + Z.of_nat i * s)%Z ->
  computesI (fun m => room R m (ix1 n) (Tmp 0) Z.of_nat)
    (fun m => m1 <- fftop L C2C e n sc (bound q o s n) (created n) m ;; vcopy L (created n) (bound q o s n) m1)
    (ix1 n) q (fun i => o + Z.of_nat i * s)%Z x (ix1 n) q (fun i => o + Z.of_nat i * s)%Z (spectrum R t C2C e n sc x).
Proof.
  intros He Hn Cq Ho Hs B Di m Pm I W.
  pose proof (cpx_ntmp q Cq) as Nq.
  assert (Hp : forall i, pos (created n) i = Z.of_nat i) by (intros i; unfold pos, created; cbn [fv_off fv_st]; lia).
  assert (Ft : fits lax n n) by (unfold fits; destruct lax; lia).
  destruct (doc_fft R t L lax evn D C2C e n sc (bound q o s n) (created n) x He Hn ltac:(congruence)
    (usable_bound q o s n Hn Ho Hs B) (usable_created n Hn) Ft Ft (conj (cpx_cpx_side q Cq) Logic.I)
    (tmp_dist (ix1 n) (pos (created n)) ltac:(intros k k' _ _; rewrite !Hp; lia)) (tmp_disj1 _ _ _ _ _ Nq) m I) as (m1 & E1 & G1 & F1 & W1).
  { intros k Dk. rewrite Hp. apply Pm, Dk. }
  destruct (doc_copy R t L lax evn D (created n) (bound q o s n) (spectrum R t C2C e n sc x) (usable_created n Hn) (usable_bound q o s n Hn Ho Hs B)
    eq_refl Logic.I (cpx_cpx_side q Cq) Di (tmp_disj2 _ _ _ _ _ Nq) m1 G1) as (m2 & E2 & G2 & F2 & W2).
  { intros k Dk. apply W1, W, Dk. }
  exists m2. rewrite E1. cbn [bind]. split; [exact E2|]. split; [exact G2|]. split.
  - intros c Hc. rewrite F2 by exact Hc. destruct c as [a|a|a]; [| |reflexivity]; (apply F1; intros k Dk [X|[]]; discriminate X).
  - intros p' i' A. apply W2, W1, A.
Qed.
Lemma room_mono n : mono (fun m => room R m (ix1 n) (Tmp 0) Z.of_nat).
Proof. intros m m' H Hm k Dk. apply H, Hm, Dk. Qed.

(** Allocating the library's vector before and freeing it after. *)
Lemma writable_user m m' q i : ntmp q -> rm _ m' = rm _ m -> cm _ m' = cm _ m -> writable R m q i -> writable R m' q i.
Proof. intros N E1 E2 [ND W]. split; [exact ND|]. destruct q; cbn [ntmp] in N; try contradiction; rewrite ?E1, ?E2; exact W. Qed.
Lemma get_user m m' q i : ntmp q -> rm _ m' = rm _ m -> cm _ m' = cm _ m -> get R m' q i = get R m q i.
Proof. intros N E1 E2. destruct q; cbn [ntmp get] in *; try contradiction; rewrite ?E1, ?E2; reflexivity. Qed.
Lemma with_tmp {J K} n op (dJ : J -> Prop) p a x (dK : K -> Prop) q b y : ntmp p -> ntmp q ->
  computesI (fun m => room R m (ix1 n) (Tmp 0) Z.of_nat) op dJ p a x dK q b y ->
  computes R (fun m => m' <- op (tmp_alloc R n m) ;; Some (tmp_free R m m')) dJ p a x dK q b y.
Proof.
  intros Np Nq H m I W. destruct (H (tmp_alloc R n m)) as (m' & E & G & F & Wr).
  - intros k Dk. split; [constructor; [intros []|constructor]|]. cbn [tmp_alloc tm]. unfold ix1 in Dk.
    destruct (Z.leb_spec 0 (0 + Z.of_nat k)); [|lia]. destruct (Z.ltb_spec (0 + Z.of_nat k) (Z.of_nat n)); [discriminate|lia].
  - intros j Dj. rewrite (get_user m (tmp_alloc R n m) p _ Np eq_refl eq_refl). apply I, Dj.
  - intros k Dk. exact (writable_user m (tmp_alloc R n m) q (b k) Nq eq_refl eq_refl (W k Dk)).
  - exists (tmp_free R m m'). rewrite E. cbn [bind]. split; [reflexivity|]. split; [|split].
    + intros k Dk. rewrite (get_user m' (tmp_free R m m') q _ Nq eq_refl eq_refl). apply G, Dk.
    + intros c Hc. specialize (F c Hc). destruct c; exact F.
    + intros p' i' A. destruct p' as [u|u|u v|u].
      * exact (writable_user m' (tmp_free R m m') (Real u) i' Logic.I eq_refl eq_refl (Wr _ _ (writable_user m (tmp_alloc R n m) (Real u) i' Logic.I eq_refl eq_refl A))).
      * exact (writable_user m' (tmp_free R m m') (Inter u) i' Logic.I eq_refl eq_refl (Wr _ _ (writable_user m (tmp_alloc R n m) (Inter u) i' Logic.I eq_refl eq_refl A))).
      * exact (writable_user m' (tmp_free R m m') (Split u v) i' Logic.I eq_refl eq_refl (Wr _ _ (writable_user m (tmp_alloc R n m) (Split u v) i' Logic.I eq_refl eq_refl A))).
      * exact A.
Qed.

Lemma computes_ext {J K} op op' (dJ : J -> Prop) p a x (dK : K -> Prop) q b y :
  (forall m, op m = op' m) -> computes R op dJ p a x dK q b y -> computes R op' dJ p a x dK q b y.
Proof. intros E H m I W. destruct (H m I W) as (m' & X). exists m'. rewrite <- E. exact X. Qed.
Lemma dist_ext {K} (dK : K -> Prop) q b b' : (forall k, dK k -> b k = b' k) -> dist dK q b -> dist dK q b'.
Proof. intros E H k k' D1 D2 N. rewrite <- (E k D1), <- (E k' D2). apply H; assumption. Qed.

(** ** One dimension *)
Lemma fft_cv_ok k e n sc i o x :
  sign_ok k e -> 0 < n -> (k <> C2C -> lax = true \/ n <= 2) -> (k <> C2C -> evn = true -> Nat.even n = true) ->
  types_ok k (vp i) (vp o) -> vn i = in_size k n -> vn o = out_size k n ->
  (0 <= vs i)%Z -> (0 <= vs o)%Z ->
  ((Z.of_nat n - 1) * vs i + 1 < 18446744073709551616)%Z -> ((Z.of_nat n - 1) * vs o + 1 < 18446744073709551616)%Z ->
  dist (ix1 (vn o)) (vp o) (el1 o) -> disj (ix1 (vn i)) (vp i) (el1 i) (ix1 (vn o)) (vp o) (el1 o) ->
  computes R (fft_cv R L k e n sc i o) (ix1 (vn i)) (vp i) (el1 i) x (ix1 (vn o)) (vp o) (el1 o) (spectrum R t k e n sc x).
Proof.
  intros Se Hn Lx Ev T Ei Eo Hi Ho Bi Bo Di Dj.
  assert (Hlen : (match k with C2R => vn o | _ => vn i end) = n) by (destruct k; [rewrite Ei|rewrite Ei|rewrite Eo]; reflexivity).
  assert (Fi : fits lax (in_size k n) n).
  { destruct k; [unfold fits; destruct lax; cbn [in_size]; lia|unfold fits; destruct lax; cbn [in_size]; lia|].
    apply half_fits; [exact Hn|apply Lx; discriminate]. }
  assert (Fo : fits lax (out_size k n) n).
  { destruct k; [unfold fits; destruct lax; cbn [out_size]; lia| |unfold fits; destruct lax; cbn [out_size]; lia].
    apply half_fits; [exact Hn|apply Lx; discriminate]. }
  apply (computes_ext (fft_out R L k e n sc (vp i) (vs i) (vp o) (vs o) n)).
  { intros m. unfold fft_cv. rewrite Ei, Eo, !Nat.eqb_refl. rewrite Ei, Eo in Hlen. rewrite Hlen. reflexivity. }
  rewrite Ei, Eo in *. exact (out_ok k e n sc (vp i) (vs i) (vp o) (vs o) n x Se Hn Ev Hn Hi Ho Bi Bo Fi Fo T Di Dj).
Qed.

Lemma fft_in_ok e n sc v x : (e = 1 \/ e = -1)%Z -> cpx_ptr (vp v) -> vn v = n -> upward1 v ->
  dist (ix1 n) (vp v) (el1 v) ->
  computes R (fft_cv_in_place R L e n sc v) (ix1 n) (vp v) (el1 v) x (ix1 n) (vp v) (el1 v) (spectrum R t C2C e n sc x).
Proof.
  intros He Cq En (Hn & Hs & B) Di. rewrite En in *.
  pose proof (cpx_ntmp _ Cq) as Nq.
  pose proof (with_tmp n _ _ _ _ _ _ _ _ _ Nq Nq (via_created e n sc (vp v) 0 (vs v) x He Hn Cq ltac:(lia) Hs ltac:(lia) (dist_ext _ _ _ _ ltac:(intros; reflexivity) Di))) as H.
  refine (computes_ext _ _ _ _ _ _ _ _ _ _ _ H). intros m. unfold fft_cv_in_place, fft_in. rewrite En, Nat.eqb_refl. cbn [bind].
  destruct (fftop L C2C e n sc (bound (vp v) 0 (vs v) n) (created n) (tmp_alloc R n m)); reflexivity.
Qed.

(** ** Many lines *)
Definition lines_of (k : kind) (e : Z) (n : nat) sc (x : nat * nat -> cpx) (ij : nat * nat) : cpx := spectrum R t k e n sc (fun j => x (fst ij, j)) (snd ij).
Lemma mul_bound (a n s c : Z) : (0 <= a < n)%Z -> (0 <= s)%Z -> ((n - 1) * s + c < 18446744073709551616)%Z -> (0 <= c)%Z -> (0 <= a * s /\ a * s + c < 18446744073709551616)%Z.
Proof. intros Ha Hs B Hc. assert (a * s <= (n - 1) * s)%Z by (apply Z.mul_le_mono_nonneg_r; lia). split; [apply Z.mul_nonneg_nonneg; lia|lia]. Qed.

Lemma rows_out k e n sc p ivs ies q ovs oes nfft x :
  sign_ok k e -> 0 < n -> (k <> C2C -> evn = true -> Nat.even n = true) -> types_ok k p q ->
  (0 <= ivs)%Z -> (0 <= ies)%Z -> (0 <= ovs)%Z -> (0 <= oes)%Z ->
  ((Z.of_nat nfft - 1) * ivs + ((Z.of_nat (in_size k n) - 1) * ies + 1) < 18446744073709551616)%Z ->
  ((Z.of_nat nfft - 1) * ovs + ((Z.of_nat (out_size k n) - 1) * oes + 1) < 18446744073709551616)%Z ->
  dist (ix2 nfft (out_size k n)) q (at2 ovs oes) ->
  disj (ix2 nfft (in_size k n)) p (at2 ivs ies) (ix2 nfft (out_size k n)) q (at2 ovs oes) ->
  computes R (loop (fun i m => fftop L k e n sc (bound p (u64 (Z.of_nat i * ivs)) ies (in_size k n)) (bound q (u64 (Z.of_nat i * ovs)) oes (out_size k n)) m) 0 nfft)
    (ix2 nfft (in_size k n)) p (at2 ivs ies) x (ix2 nfft (out_size k n)) q (at2 ovs oes) (lines_of k e n sc x).
Proof.
  intros Se Hn Ev T H1 H2 H3 H4 B1 B2 Di Dj. destruct (types_ntmp k p q T) as [Np Nq].
  assert (Hi : 0 < in_size k n) by (destruct k; cbn [in_size]; lia).
  assert (Ho : 0 < out_size k n) by (destruct k; cbn [out_size]; lia).
  assert (P : computesI (fun _ => True) (loop (fun i m => fftop L k e n sc (bound p (u64 (Z.of_nat i * ivs)) ies (in_size k n)) (bound q (u64 (Z.of_nat i * ovs)) oes (out_size k n)) m) 0 nfft)
    (ix2 nfft (in_size k n)) p (at2 ivs ies) x (ix2 nfft (out_size k n)) q (at2 ovs oes) (lines_of k e n sc x)).
  { refine (computes_pair _ _ _ _ _ _ _ _ _ _ _ (loop_computes (fun _ => True) _ nfft (ix1 (in_size k n)) p (fun i j => at2 ivs ies (i, j)) (fun i j => x (i, j))
      (ix1 (out_size k n)) q (fun i j => at2 ovs oes (i, j)) (fun i j => lines_of k e n sc x (i, j)) _ Np Nq _ _ _)).
    - intros m m' _ _. exact Logic.I.
    - intros i Hn' m _ I W.
      destruct (mul_bound (Z.of_nat i) (Z.of_nat nfft) ivs _ ltac:(lia) H1 B1) as [X1 X2]; [assert (0 <= (Z.of_nat (in_size k n) - 1) * ies)%Z by (apply Z.mul_nonneg_nonneg; lia); lia|].
      destruct (mul_bound (Z.of_nat i) (Z.of_nat nfft) ovs _ ltac:(lia) H3 B2) as [Y1 Y2]; [assert (0 <= (Z.of_nat (out_size k n) - 1) * oes)%Z by (apply Z.mul_nonneg_nonneg; lia); lia|].
      assert (0 <= (Z.of_nat (in_size k n) - 1) * ies)%Z by (apply Z.mul_nonneg_nonneg; lia).
      assert (0 <= (Z.of_nat (out_size k n) - 1) * oes)%Z by (apply Z.mul_nonneg_nonneg; lia).
      rewrite (u64_id (Z.of_nat i * ivs)), (u64_id (Z.of_nat i * ovs)) by lia.
      refine (doc_fft R t L lax evn D k e n sc (bound p (Z.of_nat i * ivs) ies (in_size k n)) (bound q (Z.of_nat i * ovs) oes (out_size k n)) (fun j => x (i, j)) Se Hn Ev
        (usable_bound _ _ _ _ Hi X1 H2 ltac:(lia)) (usable_bound _ _ _ _ Ho Y1 H4 ltac:(lia)) _ _ (types_sides k p q T) _ _ m I W).
      + unfold fits. cbn [bound fv_len]. destruct lax; lia.
      + unfold fits. cbn [bound fv_len]. destruct lax; lia.
      + intros j j' Hj Hj' N. exact (Di (i, j) (i, j') (conj Hn' Hj) (conj Hn' Hj') ltac:(congruence)).
      + intros j j' Hj Hj'. exact (Dj (i, j) (i, j') (conj Hn' Hj) (conj Hn' Hj')).
    - intros i j k0 k' Hi0 Hj0 N Hk Hk'. exact (Di (i, k0) (j, k') (conj Hi0 Hk) (conj Hj0 Hk') ltac:(congruence)).
    - intros i j k0 k' Hi0 Hj0 N Hk Hk'. exact (Dj (j, k') (i, k0) (conj Hj0 Hk') (conj Hi0 Hk)). }
  intros m I W. exact (P m Logic.I I W).
Qed.

Lemma rows_in e n sc q vs es nfft x : (e = 1 \/ e = -1)%Z -> 0 < n -> cpx_ptr q -> (0 <= vs)%Z -> (0 <= es)%Z ->
  ((Z.of_nat nfft - 1) * vs + ((Z.of_nat n - 1) * es + 1) < 18446744073709551616)%Z ->
  dist (ix2 nfft n) q (at2 vs es) ->
  computes R (fun m => m' <- loop (fun i m => m1 <- fftop L C2C e n sc (bound q (u64 (Z.of_nat i * vs)) es n) (created n) m ;;
      vcopy L (created n) (bound q (u64 (Z.of_nat i * vs)) es n) m1) 0 nfft (tmp_alloc R n m) ;; Some (tmp_free R m m'))
    (ix2 nfft n) q (at2 vs es) x (ix2 nfft n) q (at2 vs es) (lines_of C2C e n sc x).
Proof.
  intros He Hn Cq H1 H2 B Di. pose proof (cpx_ntmp q Cq) as Nq.
  apply (with_tmp n (loop (fun i m => m1 <- fftop L C2C e n sc (bound q (u64 (Z.of_nat i * vs)) es n) (created n) m ;;
      vcopy L (created n) (bound q (u64 (Z.of_nat i * vs)) es n) m1) 0 nfft) (ix2 nfft n) q (at2 vs es) x (ix2 nfft n) q (at2 vs es) (lines_of C2C e n sc x) Nq Nq).
  refine (computes_pair _ _ _ _ _ _ _ _ _ _ _ (loop_computes _ _ nfft (ix1 n) q (fun i j => at2 vs es (i, j)) (fun i j => x (i, j))
      (ix1 n) q (fun i j => at2 vs es (i, j)) (fun i j => lines_of C2C e n sc x (i, j)) (room_mono n) Nq Nq _ _ _)).
  - intros i Hi. assert (0 <= (Z.of_nat n - 1) * es)%Z by (apply Z.mul_nonneg_nonneg; lia).
    destruct (mul_bound (Z.of_nat i) (Z.of_nat nfft) vs _ ltac:(lia) H1 B ltac:(lia)) as [X1 X2].
    rewrite (u64_id (Z.of_nat i * vs)) by lia.
    refine (via_created e n sc q (Z.of_nat i * vs) es (fun j => x (i, j)) He Hn Cq X1 H2 ltac:(lia) _).
    intros j j' Hj Hj' N. exact (Di (i, j) (i, j') (conj Hi Hj) (conj Hi Hj') ltac:(congruence)).
  - intros i j k0 k' Hi0 Hj0 N Hk Hk'. exact (Di (i, k0) (j, k') (conj Hi0 Hk) (conj Hj0 Hk') ltac:(congruence)).
  - intros i j k0 k' Hi0 Hj0 N Hk Hk'. exact (Di (i, k0) (j, k') (conj Hi0 Hk) (conj Hj0 Hk') ltac:(congruence)).
Qed.

Lemma computes_swp op n l n' l' p irs ics x q ors ocs y y' : computes R op (ix2 n l) p (at2 irs ics) (fun rc => x (swp rc)) (ix2 n' l') q (at2 ors ocs) y ->
  (forall r c, r < n' -> c < l' -> y (r, c) = y' (c, r)) ->
  computes R op (ix2 l n) p (at2 ics irs) x (ix2 l' n') q (at2 ocs ors) y'.
Proof.
  intros H Hy. refine (computes_reindex _ _ _ _ _ _ _ _ _ _ _ _ _ _ _ H _ _ _).
  - intros [r c] [Hr Hc]. exists (c, r). split; [split; assumption|]. split; [|reflexivity]. unfold at2. cbn [fst snd]. lia.
  - intros [r c] [Hr Hc]. exists (c, r). split; [split; assumption|]. unfold at2. cbn [fst snd]. lia.
  - intros [c r] [Hc Hr]. exists (r, c). split; [split; assumption|]. split; [|apply Hy; assumption]. unfold at2. cbn [fst snd]. lia.
Qed.

Lemma fftm_cv_ok A k e rows cols sc i o x :
  A = 0 \/ A = 1 -> sign_ok k e -> (k <> C2C -> evn = true -> Nat.even (if A =? 1 then rows else cols) = true) ->
  types_ok k (mp i) (mp o) ->
  (mnr i, mnc i) = (if A =? 1 then (in_size k rows, cols) else (rows, in_size k cols)) ->
  (mnr o, mnc o) = (if A =? 1 then (out_size k rows, cols) else (rows, out_size k cols)) ->
  0 < rows -> 0 < cols -> upward2 i -> upward2 o ->
  (k = C2C -> forall a b, mp i = Split a b -> if A =? 1 then mrs o = mrs i else mcs o = mcs i) ->
  dist (ix2 (mnr o) (mnc o)) (mp o) (el2 o) -> disj (ix2 (mnr i) (mnc i)) (mp i) (el2 i) (ix2 (mnr o) (mnc o)) (mp o) (el2 o) ->
  computes R (fftm_cv R L A k e rows cols sc i o) (ix2 (mnr i) (mnc i)) (mp i) (el2 i) x
    (ix2 (mnr o) (mnc o)) (mp o) (el2 o) (lines R t A k e rows cols sc x).
Proof.
  intros HA Se Ev T Si So Hr Hc (_ & _ & I1 & I2 & IB) (_ & _ & O1 & O2 & OB) Sp Di Dj.
  destruct HA as [-> | ->]; cbn [Nat.eqb] in *; injection Si as Ei1 Ei2; injection So as Eo1 Eo2.
  - rewrite Ei1, Ei2, Eo1, Eo2 in *.
    refine (computes_ext _ _ _ _ _ _ _ _ _ _ _ (rows_out k e cols sc (mp i) (mrs i) (mcs i) (mp o) (mrs o) (mcs o) rows x Se Hc Ev T I1 I2 O1 O2 ltac:(lia) ltac:(lia) Di Dj)).
    intros m. unfold fftm_cv. cbn [Nat.sub Nat.eqb axis_of fst snd]. rewrite Ei1, Ei2, Eo1, Eo2, !Nat.eqb_refl. cbn [andb].
    unfold fftm_out. cbn [Nat.eqb axis_of].
    assert (E1 : mnr match k with C2R => o | _ => i end = rows) by (destruct k; assumption).
    assert (E2 : mnc match k with C2R => o | _ => i end = cols) by (destruct k; cbn [in_size out_size] in *; assumption).
    rewrite E1, E2. apply loop_ext. intros j m0 _. f_equal. f_equal. destruct k; try reflexivity. destruct (mp i) eqn:Em; try reflexivity. exact (eq_sym (Sp eq_refl _ _ eq_refl)).
  - rewrite Ei1, Ei2, Eo1, Eo2 in *.
    apply (computes_swp _ cols (in_size k rows) cols (out_size k rows) (mp i) (mcs i) (mrs i) x (mp o) (mcs o) (mrs o) (lines_of k e rows sc (fun rc => x (swp rc)))).
    2:{ intros r c Hr' Hc'. reflexivity. }
    refine (computes_ext _ _ _ _ _ _ _ _ _ _ _ (rows_out k e rows sc (mp i) (mcs i) (mrs i) (mp o) (mcs o) (mrs o) cols _ Se Hr Ev T I2 I1 O2 O1 ltac:(lia) ltac:(lia) (dist_swp _ _ _ _ _ Di) (disj_swp _ _ _ _ Dj))).
    intros m. unfold fftm_cv. cbn [Nat.sub Nat.eqb axis_of fst snd]. rewrite Ei1, Ei2, Eo1, Eo2, !Nat.eqb_refl. cbn [andb].
    unfold fftm_out. cbn [Nat.eqb axis_of].
    assert (E1 : mnc match k with C2R => o | _ => i end = cols) by (destruct k; assumption).
    assert (E2 : mnr match k with C2R => o | _ => i end = rows) by (destruct k; cbn [in_size out_size] in *; assumption).
    rewrite E1, E2. apply loop_ext. intros j m0 _. f_equal. f_equal. destruct k; try reflexivity. destruct (mp i) eqn:Em; try reflexivity. exact (eq_sym (Sp eq_refl _ _ eq_refl)).
Qed.

Lemma fftm_in_ok A e rows cols sc v x : A = 0 \/ A = 1 -> (e = 1 \/ e = -1)%Z -> cpx_ptr (mp v) ->
  mnr v = rows -> mnc v = cols -> upward2 v -> dist (ix2 rows cols) (mp v) (el2 v) ->
  computes R (fftm_cv_in_place R L A e rows cols sc v) (ix2 rows cols) (mp v) (el2 v) x
    (ix2 rows cols) (mp v) (el2 v) (lines R t A C2C e rows cols sc x).
Proof.
  intros HA He Cq Er Ec (Hr & Hc & I1 & I2 & IB) Di. rewrite Er, Ec in *.
  destruct HA as [-> | ->].
  - refine (computes_ext _ _ _ _ _ _ _ _ _ _ _ (rows_in e cols sc (mp v) (mrs v) (mcs v) rows x He Hc Cq I1 I2 ltac:(lia) Di)).
    intros m. unfold fftm_cv_in_place. rewrite Er, Ec, !Nat.eqb_refl. reflexivity.
  - apply (computes_swp _ cols rows cols rows (mp v) (mcs v) (mrs v) x (mp v) (mcs v) (mrs v) (lines_of C2C e rows sc (fun rc => x (swp rc)))).
    2:{ intros r c Hr' Hc'. reflexivity. }
    refine (computes_ext _ _ _ _ _ _ _ _ _ _ _ (rows_in e rows sc (mp v) (mcs v) (mrs v) cols _ He Hr Cq I2 I1 ltac:(lia) (dist_swp _ _ _ _ _ Di))).
    intros m. unfold fftm_cv_in_place. rewrite Er, Ec, !Nat.eqb_refl. reflexivity.
Qed.
End P.

(** * The reference library *)
Section Ref.
Context (R : CRing) (t : trig R) (lax evn : bool).
Add Ring Rr2 : (r_th R).
Add Ring Cc2 : (r_th (Cr R)).
Notation cpx := (Cr R).

Lemma okv_usable v : usable v -> okv v = true.
Proof.
  intros [Hl H]. unfold okv. apply andb_true_intro. split; [apply Nat.ltb_lt; exact Hl|].
  apply forallb_forall. intros i Hi. apply in_seq in Hi. specialize (H i ltac:(lia)). apply andb_true_intro. split; [apply Z.leb_le|apply Z.ltb_lt]; lia.
Qed.
Lemma fits_fitsb a b : fits lax a b -> fitsb lax a b = true.
Proof. unfold fits, fitsb. destruct lax; intros H; [apply Nat.leb_le|apply Nat.eqb_eq]; exact H. Qed.

Lemma fft_value_ok k e n p s w m (x : nat -> cpx) : 0 < n -> (forall j, j < in_size k n -> get R m p (Z.of_nat j * s)%Z = Some (x j)) ->
  fft_value R t k e n p s w m = Some (match k with C2R => DFT R t 1 n (herm R n x) w | _ => DFT R t e n x w end).
Proof.
  intros Hn I. destruct k; [exact (inner_ok R t e n p s w n m x I)|exact (inner_ok R t e n p s w n m x I)|].
  cbn [fft_value in_size] in *. rewrite (inner_ok R t 1 n p s w (n / 2 + 1) m x I). cbn [bind].
  assert (Hl : n / 2 + 1 <= n \/ n = 1). { destruct n as [|[|n]]; [lia|right; reflexivity|left]. assert (S (S n) / 2 < S (S n)) by (apply Nat.div_lt; lia). lia. }
  destruct Hl as [Hl|Hl].
  2:{ subst n. cbn [loop Nat.sub Nat.div Nat.divmod fst Nat.add]. unfold DFT. f_equal. }
  match goal with |- loop ?F _ _ _ = _ => destruct (loop_inv' F (fun i a => a = sum (fun k => herm R n x k * sin_cos R t n (1 * Z.of_nat k * Z.of_nat w)%Z)%cr i) (n - (n / 2 + 1)) (n / 2 + 1)
    (sum (fun k => x k * sin_cos R t n (1 * Z.of_nat k * Z.of_nat w)%Z)%cr (n / 2 + 1))) as (v & E & V) end.
  - intros i a [Hi1 Hi] ->.
    assert (Hk : n - i < n / 2 + 1). { pose proof (Nat.div_mod n 2 ltac:(lia)) as D. pose proof (Nat.mod_upper_bound n 2 ltac:(lia)). lia. }
    rewrite I by exact Hk. cbn [bind]. eexists. split; [reflexivity|]. cbn [sum]. f_equal. f_equal. unfold Dft.herm.
    destruct (Nat.leb_spec i (n / 2)) as [Y|Y]; [lia|reflexivity].
  - apply (sum_ext (Cr R)). intros k Hk. unfold Dft.herm. destruct (Nat.leb_spec k (n / 2)) as [Y|Y]; [reflexivity|lia].
  - rewrite E, V. replace (n / 2 + 1 + (n - (n / 2 + 1))) with n by lia. reflexivity.
Qed.

Lemma reference_ok : documented R t (reference R t lax evn) lax evn.
Proof.
  constructor.
  - intros k e n sc vi vo x Se Hn Ev Ui Uo Fi Fo Sd Di Dj.
    set (y := fun w => (match k with C2R => DFT R t 1 n (herm R n x) w | _ => DFT R t e n x w end * ofR R sc)%cr).
    assert (X : eff R (loop (fun w m => v <- (v <- fft_value R t k e n (padd (fv_ptr vi) (fv_off vi)) (fv_st vi) w m ;; Some (v * ofR R sc)%cr) ;;
      put R m (fv_ptr vo) (pos vo w) v) 0 (out_size k n)) (ix1 (in_size k n)) (fv_ptr vi) (pos vi) x (ix1 (out_size k n)) (fv_ptr vo) (pos vo) y).
    { apply (eff_store R (fun w m => v <- fft_value R t k e n (padd (fv_ptr vi) (fv_off vi)) (fv_st vi) w m ;; Some (v * ofR R sc)%cr)
        (out_size k n) (ix1 (in_size k n)) (fv_ptr vi) (pos vi) x (fv_ptr vo) (pos vo) y).
      - intros w m Hw I. rewrite (fft_value_ok k e n _ _ w m x Hn); [reflexivity|]. intros j Hj. rewrite get_padd. apply I, Hj.
      - intros w w' Hw Hw' N. apply Di; assumption.
      - intros w j Hw Hj. apply Dj; assumption. }
    intros m I W. destruct (eff_computes R _ _ _ _ _ _ _ _ _ X m I W) as (m' & E & G & F).
    exists m'. split; [|split; [|exact F]].
    + cbn [reference fftop]. rewrite (okv_usable vi Ui), (okv_usable vo Uo), (fits_fitsb _ _ Fi), (fits_fitsb _ _ Fo). cbn [andb].
      replace (match k with C2C => true | _ => negb evn || Nat.even n end) with true
        by (destruct k; [reflexivity| |]; (destruct evn; [cbn [negb orb]; symmetry; apply Ev; [discriminate|reflexivity]|reflexivity])).
      rewrite <- E. apply loop_ext. intros w m0 _. destruct (fft_value R t k e n (padd (fv_ptr vi) (fv_off vi)) (fv_st vi) w m0); reflexivity.
    + intros w Hw. rewrite (G w Hw). f_equal. unfold y. destruct k; cbn [spectrum sides_ok] in *.
      * destruct (fv_ptr vo); cbn in Sd; try tauto; reflexivity.
      * destruct (fv_ptr vo); cbn in Sd; try tauto; reflexivity.
      * destruct (fv_ptr vo); cbn in Sd; try tauto. cbn [as_stored]. unfold ofR. apply injective_projections; cbn; ring.
  - intros a b x Ua Ub El Ca Cb Di Dj m I W.
    pose proof (eff_store R (fun i m => get R m (fv_ptr a) (pos a i)) (fv_len b) (ix1 (fv_len a)) (fv_ptr a) (pos a) x (fv_ptr b) (pos b) x) as X.
    destruct (eff_computes R _ _ _ _ _ _ _ _ _ (X ltac:(intros w m0 Hw I0; apply I0; unfold ix1; lia) ltac:(intros; apply Di; assumption) ltac:(intros; apply Dj; assumption)) m I W) as (m' & E & G & F).
    exists m'. split; [|split; [|exact F]].
    + cbn [reference vcopy]. rewrite (okv_usable a Ua), (okv_usable b Ub), El, Nat.eqb_refl. cbn [andb]. rewrite <- El. exact E.
    + intros w Hw. rewrite (G w Hw). f_equal. destruct (fv_ptr b); cbn in Cb; try tauto; reflexivity.
Qed.

(** What a library that checks refuses. *)
Lemma strict_length k e n sc i o m : lax = false -> k <> C2C -> 2 < n -> fft_cv R (reference R t lax evn) k e n sc i o m = None.
Proof.
  intros -> Hk Hn. unfold fft_cv. destruct (vn i =? in_size k n) eqn:E1; [|reflexivity]. destruct (vn o =? out_size k n) eqn:E2; [|reflexivity].
  apply Nat.eqb_eq in E1, E2. assert (Hh : n / 2 + 1 < n).
  { pose proof (Nat.div_mod n 2 ltac:(lia)). pose proof (Nat.mod_upper_bound n 2 ltac:(lia)). lia. }
  unfold fft_out, reference. cbn [fftop bound fv_len]. unfold fitsb.
  destruct k; [contradiction| |]; cbn [in_size out_size] in *; rewrite ?E1, ?E2.
  - replace (n =? n / 2 + 1) with false by (symmetry; apply Nat.eqb_neq; lia). rewrite andb_false_r. reflexivity.
  - replace (n =? n / 2 + 1) with false by (symmetry; apply Nat.eqb_neq; lia). rewrite andb_false_r. reflexivity.
Qed.
Lemma strict_even k e n sc i o m : evn = true -> k <> C2C -> Nat.even n = false -> fft_cv R (reference R t lax evn) k e n sc i o m = None.
Proof.
  intros -> Hk Hn. unfold fft_cv. destruct (vn i =? in_size k n); [|reflexivity]. destruct (vn o =? out_size k n); [|reflexivity].
  unfold fft_out, reference. cbn [fftop]. rewrite Hn. destruct k; [contradiction| |]; cbn [negb orb]; match goal with |- (if ?b then _ else _) = _ => destruct b; reflexivity end.
Qed.
End Ref.
