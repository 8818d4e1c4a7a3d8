(** Proofs about correlation. *)
From Coq Require Import ZArith List Lia Bool Arith.
From Verif Require Import Base Fir FirProofs Freqswap FreqswapProofs Conv ConvProofs Corr.
Import ListNotations.
Local Open Scope nat_scope.

Lemma meets_row s n k N : forall a, length (List.filter (fun kj => meets s n (fst kj) (snd kj)) (map (fun j => (k, j)) (seq a N))) =
  if (a + s <=? n + k) && (n + k <? a + N + s) then 1 else 0.
Proof.
  induction N as [|N IH]; intros a; cbn [seq map List.filter].
  - destruct (Nat.leb_spec (a + s) (n + k)), (Nat.ltb_spec (n + k) (a + 0 + s)); try lia; reflexivity.
  - cbn [fst snd]. destruct (meets s n k a) eqn:e; [apply Nat.eqb_eq in e | apply Nat.eqb_neq in e]; cbn [length]; rewrite IH;
    destruct (Nat.leb_spec (a + s) (n + k)), (Nat.ltb_spec (n + k) (a + S N + s)), (Nat.leb_spec (S a + s) (n + k)), (Nat.ltb_spec (n + k) (S a + N + s)); try lia; reflexivity.
Qed.
Lemma overlap_eq M N s n : overlap M N s n = Nat.min M (N + s - n) - Nat.min M (s - n).
Proof.
  assert (G : forall m a, length (List.filter (fun kj => meets s n (fst kj) (snd kj)) (list_prod (seq a m) (seq 0 N))) =
    (Nat.min (a + m) (N + s - n) - a) - (Nat.min (a + m) (s - n) - a)).
  { induction m as [|m IH]; intros a; cbn [seq list_prod].
    - cbn [List.filter length]. lia.
    - rewrite filter_app, app_length, meets_row, IH.
      destruct (Nat.leb_spec (0 + s) (n + a)), (Nat.ltb_spec (n + a) (0 + N + s)); cbn [andb]; lia. }
  unfold overlap. rewrite G. lia.
Qed.
Lemma ge_diff_spec n a b : b <= a -> (Z.of_nat a < W64)%Z -> ge_diff n a b = (a - b <=? n).
Proof.
  intros H W. unfold ge_diff, u64. rewrite Z.mod_small by lia. destruct (Z.leb_spec (Z.of_nat a - Z.of_nat b) (Z.of_nat n)), (Nat.leb_spec (a - b) n); lia || reflexivity.
Qed.

Section C.
Context {K : CRing} (conj : K -> K) (div : K -> K -> K).
Add Ring Kring : (r_th K).
Local Open Scope cr_scope.
Implicit Types m : mem K.
Notation of_nat := (@of_nat K).

Lemma of_nat_add a b : of_nat (a + b) = of_nat a + of_nat b.
Proof. induction a as [|a IH]; cbn; [ring|]. rewrite IH. ring. Qed.
Lemma of_nat_mul a b : of_nat (a * b) = of_nat a * of_nat b.
Proof. induction a as [|a IH]; cbn [Nat.mul Corr.of_nat]; [ring|]. rewrite of_nat_add, IH. ring. Qed.

Lemma meet_pick (N s n k : nat) (t : nat -> K) :
  sum (fun j => if meets s n k j then t j else 0) N = if (s <=? n + k)%nat && (n + k <? N + s)%nat then t (n + k - s)%nat else 0.
Proof.
  induction N as [|N IH]; cbn [sum].
  - destruct (Nat.leb_spec s (n + k)), (Nat.ltb_spec (n + k) (0 + s)); try lia; reflexivity.
  - rewrite IH. unfold meets at 1.
    destruct (Nat.leb_spec s (n + k)), (Nat.ltb_spec (n + k) (N + s)), (Nat.ltb_spec (n + k) (S N + s)), (Nat.eqb_spec (n + k) (N + s)); try lia; cbn [andb]; try ring.
    replace (n + k - s)%nat with N by lia. ring.
Qed.
Lemma corr_at_eq M N s ref x n : corr_at conj M N s ref x n =
  sum (fun k => if (s <=? n + k)%nat && (n + k <? N + s)%nat then ref k * conj (x (n + k - s)%nat) else 0) M.
Proof. apply sum_ext. intros k _. apply meet_pick. Qed.
Lemma corr_at2_eq Mr Mc Nr Nc sr sc ref x p q : corr_at2 conj Mr Mc Nr Nc sr sc ref x p q =
  sum (fun k => sum (fun l => if (sr <=? p + k)%nat && (p + k <? Nr + sr)%nat && (sc <=? q + l)%nat && (q + l <? Nc + sc)%nat
    then ref k l * conj (x (p + k - sr)%nat (q + l - sc)%nat) else 0) Mc) Mr.
Proof.
  apply sum_ext. intros k _. apply sum_ext. intros l _.
  rewrite (sum_ext _ _ (fun i => if meets sr p k i then (if (sc <=? q + l)%nat && (q + l <? Nc + sc)%nat then ref k l * conj (x i (q + l - sc)%nat) else 0) else 0)).
  - rewrite meet_pick. destruct (sr <=? p + k)%nat, (p + k <? Nr + sr)%nat; cbn [andb]; reflexivity.
  - intros i _. destruct (meets sr p k i); cbn [andb].
    + apply meet_pick.
    + apply sum_0. reflexivity.
Qed.
Lemma corr_sum1 (ref inp : block1) s n y x m : holds1 m ref y -> holds1 m inp x ->
  loop (fun k acc => if (s <=? n + k)%nat && (n + k <? len inp + s)%nat
      then r <- get1 m ref k ;; x <- get1 m inp (n + k - s)%nat ;; Some (acc + r * conj x) else Some acc) 0 (len ref) 0
  = Some (corr_at conj (len ref) (len inp) s y x n).
Proof.
  intros Hy Hx. rewrite (acc_loop _ (fun k => if (s <=? n + k)%nat && (n + k <? len inp + s)%nat then y k * conj (x (n + k - s)%nat) else 0)).
  - rewrite corr_at_eq. f_equal. ring.
  - intros k acc Hk. destruct (Nat.leb_spec s (n + k)), (Nat.ltb_spec (n + k) (len inp + s)); cbn [andb]; try (f_equal; ring).
    rewrite !get1_ok by lia. rewrite Hy by lia. cbn [bind]. rewrite Hx by lia. reflexivity.
Qed.
Lemma corr_sum_min (ref inp : block1) n y x m : holds1 m ref y -> holds1 m inp x -> (n + len ref <= len inp)%nat ->
  loop (fun k acc => r <- get1 m ref k ;; x <- get1 m inp (n + k)%nat ;; Some (acc + r * conj x)) 0 (len ref) 0
  = Some (corr_at conj (len ref) (len inp) 0 y x n).
Proof.
  intros Hy Hx Hn. rewrite (acc_loop _ (fun k => y k * conj (x (n + k)%nat))).
  - rewrite corr_at_eq. f_equal. transitivity (sum (fun k => y k * conj (x (n + k)%nat)) (len ref)); [ring|].
    apply sum_ext. intros k Hk. destruct (Nat.leb_spec 0 (n + k)), (Nat.ltb_spec (n + k) (len inp + 0)); try lia. cbn [andb]. rewrite Nat.sub_0_r. reflexivity.
  - intros k acc Hk. rewrite !get1_ok by lia. rewrite Hy by lia. cbn [bind]. rewrite Hx by lia. reflexivity.
Qed.
Lemma size_ok R M N : (0 < M)%nat -> (0 < N)%nat -> (R = support_min -> (M <= N)%nat) -> (Z.of_nat (N + M) < W64)%Z -> corr_size R M N = Z.of_nat (places R M N).
Proof.
  intros HM HN Hm HW. unfold corr_size, conv_dim_output_size, u64. destruct R; cbn [places].
  - rewrite Z.div_1_r. rewrite (Z.mod_small (Z.of_nat N + Z.of_nat M - 2)) by lia. rewrite Z.mod_small by lia. lia.
  - rewrite Z.div_1_r. rewrite (Z.mod_small (Z.of_nat N - 1)) by lia. rewrite Z.mod_small by lia. lia.
  - specialize (Hm eq_refl). rewrite Z.div_1_r, Z.mod_1_r. cbn [Z.eqb]. rewrite (Z.mod_small (Z.of_nat N - Z.of_nat M + 1)) by lia. rewrite Z.mod_small by lia. lia.
Qed.
Lemma half M : (M / 2 + (M + 1) / 2 = M /\ M / 2 <= (M + 1) / 2 <= M / 2 + 1)%nat.
Proof.
  pose proof (Nat.div_mod M 2 ltac:(lia)). pose proof (Nat.mod_upper_bound M 2 ltac:(lia)).
  pose proof (Nat.div_mod (M + 1) 2 ltac:(lia)). pose proof (Nat.mod_upper_bound (M + 1) 2 ltac:(lia)). lia.
Qed.
(** The divisor of the 1-D same support: one less than the overlap at the end
    for references of even length. *)
Definition same_terms (M N n : nat) : nat := (overlap M N (M / 2) n - (if (M / 2 <=? n) && (N - M / 2 <=? n) && (M mod 2 =? 0) then 1 else 0))%nat.
Lemma same_div M N n : (0 < M <= N)%nat -> (n < N)%nat -> (Z.of_nat N < W64)%Z ->
  (if (n <? M / 2)%nat then of_nat (n + (M + 1) / 2) else if ge_diff n N (M / 2) then of_nat (N - 1 + (M + 1) / 2 - n) else of_nat M) = of_nat (same_terms M N n).
Proof.
  intros HM Hn HW. unfold same_terms. rewrite overlap_eq. destruct (half M) as [A B].
  pose proof (Nat.div_mod M 2 ltac:(lia)) as DM. pose proof (Nat.mod_upper_bound M 2 ltac:(lia)) as MB. rewrite ge_diff_spec by lia.
  revert A B DM MB. generalize (M / 2)%nat ((M + 1) / 2)%nat (M mod 2)%nat. intros h h' e A B DM MB.
  destruct (Nat.ltb_spec n h), (Nat.leb_spec h n), (Nat.leb_spec (N - h) n), (Nat.eqb_spec e 0); try lia; cbn [andb]; f_equal; lia.
Qed.
Lemma scale_ok R M N n : (0 < M <= N)%nat -> (n < places R M N)%nat -> (Z.of_nat N < W64)%Z ->
  scale_dim (K := K) M N (lead R M) (match R with support_same => M / 2 | _ => 0 end)%nat n = of_nat (overlap M N (lead R M) n).
Proof.
  intros HM Hn HW. unfold scale_dim. rewrite overlap_eq. destruct (half M) as [A B].
  rewrite ge_diff_spec by (destruct R; lia). destruct R; cbn [lead places] in *.
  - destruct (Nat.ltb_spec n (M - 1)), (Nat.leb_spec (N - 0) n); f_equal; lia.
  - revert A B. generalize (M / 2)%nat ((M + 1) / 2)%nat. intros h h' A B. destruct (Nat.ltb_spec n h), (Nat.leb_spec (N - h) n); f_equal; lia.
  - destruct (Nat.ltb_spec n 0), (Nat.leb_spec (N - 0) n); try lia. f_equal. lia.
Qed.

Definition terms1 (R : support) (M N n : nat) : nat := match R with support_same => same_terms M N n | _ => overlap M N (lead R M) n end.
Lemma correlate1_ok R b (ref inp out : block1) y x m : (0 < len ref <= len inp)%nat -> (Z.of_nat (len inp + len ref) < W64)%Z ->
  len out = places R (len ref) (len inp) -> wf1 m out -> disjoint1 out ref -> disjoint1 out inp -> holds1 m ref y -> holds1 m inp x ->
  exists m', correlate1 conj div R (len ref) (len inp) b ref inp out m = Some m' /\
    (forall n, (n < len out)%nat -> m' (addr1 out n) = Some (scaled div b (corr_at conj (len ref) (len inp) (lead R (len ref)) y x n) (terms1 R (len ref) (len inp) n))) /\
    (forall a, (forall n, (n < len out)%nat -> a <> addr1 out n) -> m' a = m a).
Proof.
  intros HM HW HP W D1 D2 Hy Hx. unfold correlate1. rewrite !assert_true by apply Nat.eqb_refl.
  rewrite assert_true by (rewrite size_ok by lia; rewrite HP; apply Z.eqb_refl).
  set (v := fun n => scaled div b (corr_at conj (len ref) (len inp) (lead R (len ref)) y x n) (terms1 R (len ref) (len inp) n)).
  assert (G : forall e, (forall n m', (n < len out)%nat -> holds1 m' ref y -> holds1 m' inp x -> e n m' = Some (v n)) ->
    exists m', loop1 (len out) out e m = Some m' /\ (forall n, (n < len out)%nat -> m' (addr1 out n) = Some (v n)) /\ (forall a, (forall n, (n < len out)%nat -> a <> addr1 out n) -> m' a = m a)).
  { intros e He. destruct (writes1 out (len out) v (fun n m => s <- e n m ;; put1 m out n s) m) as (m' & E & O & Q); auto.
    - intros n m' Hn Ho. rewrite He; [reflexivity|assumption| |]; eapply holds1_off; eassumption.
    - exists m'. split; [exact E|]. split; [|exact (proj1 O)]. intros n Hn. rewrite Q by exact Hn. destruct (Nat.ltb_spec n (len out)); [reflexivity|lia]. }
  assert (Hs : forall n, (n < len out)%nat -> (n < places R (len ref) (len inp))%nat) by (intros; lia).
  destruct R.
  - unfold corr_full1. rewrite assert_true by (apply Nat.leb_le; lia). apply G. intros n m' Hn A B.
    rewrite usub_ok by lia. cbn [bind]. rewrite (corr_sum1 ref inp _ n y x) by assumption. cbn [bind].
    unfold v, scaled. cbn [lead terms1]. destruct b; [reflexivity|]. specialize (Hs n Hn). cbn [places] in Hs. rewrite overlap_eq.
    destruct (Nat.ltb_spec n (len ref - 1)), (Nat.leb_spec (len inp) n); do 3 f_equal; lia.
  - unfold corr_same1. apply G. intros n m' Hn A B. rewrite (corr_sum1 ref inp _ n y x) by assumption. cbn [bind].
    unfold v, scaled. cbn [lead terms1]. destruct b; [reflexivity|]. specialize (Hs n Hn). cbn [places] in Hs.
    rewrite <- same_div by lia. destruct (n <? len ref / 2)%nat; [reflexivity|]. destruct (ge_diff n (len inp) (len ref / 2)); reflexivity.
  - unfold corr_min1. apply G. intros n m' Hn A B. specialize (Hs n Hn). cbn [places] in Hs. rewrite (corr_sum_min ref inp n y x) by (assumption || lia). cbn [bind].
    unfold v, scaled. cbn [lead terms1]. destruct b; [reflexivity|]. rewrite overlap_eq. do 3 f_equal. lia.
Qed.

Lemma corr_sum2 (ref inp : block2) sr sc p q y x m : holds2 m ref y -> holds2 m inp x ->
  loop (fun rr s => loop (fun cc s =>
      if (sr <=? p + rr)%nat && (p + rr <? rows inp + sr)%nat && (sc <=? q + cc)%nat && (q + cc <? cols inp + sc)%nat
      then w <- get2 m ref rr cc ;; x <- get2 m inp (p + rr - sr)%nat (q + cc - sc)%nat ;; Some (s + w * conj x)
      else Some s) 0 (cols ref) s) 0 (rows ref) 0
  = Some (corr_at2 conj (rows ref) (cols ref) (rows inp) (cols inp) sr sc y x p q).
Proof.
  intros Hy Hx. rewrite corr_at2_eq.
  apply (acc_loop2 _ (fun k l => if (sr <=? p + k)%nat && (p + k <? rows inp + sr)%nat && (sc <=? q + l)%nat && (q + l <? cols inp + sc)%nat
    then y k l * conj (x (p + k - sr)%nat (q + l - sc)%nat) else 0)).
  intros k l s Hk Hl.
  destruct (Nat.leb_spec sr (p + k)), (Nat.ltb_spec (p + k) (rows inp + sr)), (Nat.leb_spec sc (q + l)), (Nat.ltb_spec (q + l) (cols inp + sc)); cbn [andb]; try (f_equal; ring).
  rewrite get2_ok by lia. rewrite Hy by lia. cbn [bind]. rewrite get2_ok by lia. rewrite Hx by lia. reflexivity.
Qed.
Definition terms2 R Mr Mc Nr Nc p q := (overlap Mr Nr (lead R Mr) p * overlap Mc Nc (lead R Mc) q)%nat.
Lemma correlate2_ok R b (ref inp out : block2) y x m : (0 < rows ref <= rows inp)%nat -> (0 < cols ref <= cols inp)%nat ->
  (Z.of_nat (rows inp + rows ref) < W64)%Z -> (Z.of_nat (cols inp + cols ref) < W64)%Z ->
  rows out = places R (rows ref) (rows inp) -> cols out = places R (cols ref) (cols inp) -> wf2 m out -> disjoint2 out ref -> disjoint2 out inp -> holds2 m ref y -> holds2 m inp x ->
  exists m', correlate2 conj div R (rows ref) (cols ref) (rows inp) (cols inp) b ref inp out m = Some m' /\
    (forall p q, (p < rows out)%nat -> (q < cols out)%nat -> m' (addr2 out p q) =
      Some (scaled div b (corr_at2 conj (rows ref) (cols ref) (rows inp) (cols inp) (lead R (rows ref)) (lead R (cols ref)) y x p q)
        (overlap (rows ref) (rows inp) (lead R (rows ref)) p * overlap (cols ref) (cols inp) (lead R (cols ref)) q))) /\
    (forall a, (forall p q, (p < rows out)%nat -> (q < cols out)%nat -> a <> addr2 out p q) -> m' a = m a).
Proof.
  intros Hr Hc Wr Wc Er Ec W D1 D2 Hy Hx. unfold correlate2. rewrite !assert_true by apply Nat.eqb_refl.
  rewrite assert_true by (rewrite size_ok by lia; rewrite Er; apply Z.eqb_refl).
  rewrite assert_true by (rewrite size_ok by lia; rewrite Ec; apply Z.eqb_refl).
  set (v := fun p q => scaled div b (corr_at2 conj (rows ref) (cols ref) (rows inp) (cols inp) (lead R (rows ref)) (lead R (cols ref)) y x p q) (terms2 R (rows ref) (cols ref) (rows inp) (cols inp) p q)).
  assert (G : exists m', corr_base conj div b ref (rows ref) (cols ref) (lead R (rows ref)) (lead R (cols ref))
      (match R with support_same => rows ref / 2 | _ => 0 end)%nat (match R with support_same => cols ref / 2 | _ => 0 end)%nat inp (rows inp) (cols inp) out (rows out) (cols out) m = Some m' /\
    (forall p q, (p < rows out)%nat -> (q < cols out)%nat -> m' (addr2 out p q) = Some (v p q)) /\
    (forall a, (forall p q, (p < rows out)%nat -> (q < cols out)%nat -> a <> addr2 out p q) -> m' a = m a)).
  { unfold corr_base. rewrite !assert_true by (apply Nat.leb_le; lia). unfold loop2.
    match goal with |- exists m', loop (fun r m => loop (fun c m => @?g r c m) 0 _ m) 0 _ _ = _ /\ _ => destruct (writes2 out (rows out) (cols out) (fun _ _ => true) v g m) as (m' & E & O & Q); auto end.
    - intros p q m' Hp Hq Ho. cbv beta. rewrite (corr_sum2 ref inp _ _ p q y x) by (eapply holds2_off; eassumption). cbn [bind].
      unfold v, scaled. destruct b; [reflexivity|]. cbn [bind]. rewrite !scale_ok by lia. unfold terms2. rewrite of_nat_mul. do 2 f_equal. ring.
    - exists m'. split; [exact E|]. split; [|exact (proj1 O)]. intros p q Hp Hq. rewrite Q by assumption.
      destruct (Nat.ltb_spec p (rows out)), (Nat.ltb_spec q (cols out)); try lia. reflexivity. }
  destruct R; cbn [lead] in *; try exact G. rewrite !usub_ok by lia. cbn [bind]. exact G.
Qed.

Lemma terms1_ok R M N n : R <> support_same \/ M mod 2 = 1%nat -> terms1 R M N n = overlap M N (lead R M) n.
Proof.
  intros H. destruct R; try reflexivity. destruct H as [H|H]; [congruence|]. cbn [terms1 lead]. unfold same_terms. rewrite H. cbn [Nat.eqb]. rewrite andb_false_r. apply Nat.sub_0_r.
Qed.
Lemma vector_ok R b (ref inp out : block1) y x m : b = biased \/ R <> support_same \/ len ref mod 2 = 1%nat -> (0 < len ref <= len inp)%nat -> (Z.of_nat (len inp + len ref) < W64)%Z ->
  len out = places R (len ref) (len inp) -> wf1 m out -> disjoint1 out ref -> disjoint1 out inp -> holds1 m ref y -> holds1 m inp x ->
  exists m', correlate1 conj div R (len ref) (len inp) b ref inp out m = Some m' /\
    (forall n, (n < len out)%nat -> m' (addr1 out n) = Some (scaled div b (corr_at conj (len ref) (len inp) (lead R (len ref)) y x n) (overlap (len ref) (len inp) (lead R (len ref)) n))) /\
    (forall a, (forall n, (n < len out)%nat -> a <> addr1 out n) -> m' a = m a).
Proof.
  intros Hb HM HW HP W D1 D2 Hy Hx. destruct (correlate1_ok R b ref inp out y x m) as (m' & E & Q & F); auto.
  exists m'. split; [exact E|]. split; [|exact F]. intros n Hn. rewrite Q by exact Hn. destruct Hb as [-> | Hb]; [reflexivity|]. rewrite terms1_ok by exact Hb. reflexivity.
Qed.
Lemma same_even (ref inp out : block1) y x m : len ref mod 2 = 0%nat -> (0 < len ref <= len inp)%nat -> (Z.of_nat (len inp + len ref) < W64)%Z ->
  len out = len inp -> wf1 m out -> disjoint1 out ref -> disjoint1 out inp -> holds1 m ref y -> holds1 m inp x ->
  exists m', correlate1 conj div support_same (len ref) (len inp) unbiased ref inp out m = Some m' /\
    (forall n, (n < len out)%nat -> m' (addr1 out n) = Some (div (corr_at conj (len ref) (len inp) (len ref / 2) y x n)
       (of_nat (if (len ref / 2 <=? n)%nat && (len inp - len ref / 2 <=? n)%nat then overlap (len ref) (len inp) (len ref / 2) n - 1 else overlap (len ref) (len inp) (len ref / 2) n)))) /\
    (forall a, (forall n, (n < len out)%nat -> a <> addr1 out n) -> m' a = m a).
Proof.
  intros Hb HM HW HP W D1 D2 Hy Hx. destruct (correlate1_ok support_same unbiased ref inp out y x m) as (m' & E & Q & F); auto.
  exists m'. split; [exact E|]. split; [|exact F]. intros n Hn. rewrite Q by exact Hn. cbn [scaled terms1 lead]. unfold same_terms. rewrite Hb. cbn [Nat.eqb]. rewrite andb_true_r.
  destruct ((len ref / 2 <=? n)%nat && (len inp - len ref / 2 <=? n)%nat); [reflexivity|]. rewrite Nat.sub_0_r. reflexivity.
Qed.
End C.
