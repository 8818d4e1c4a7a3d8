(** Proofs about convolution. *)
From Coq Require Import ZArith List Lia Bool Arith.
From Verif Require Import Base Fir FirProofs Freqswap FreqswapProofs Conv.
Import ListNotations.
Local Open Scope nat_scope.

Section W.
Context {V : Type}.
Implicit Types m : mem V.
Definition off1 (out : block1) m0 m := (forall a, (forall i, i < len out -> a <> addr1 out i) -> m a = m0 a) /\ alloc m0 m.
Definition off2 (out : block2) m0 m := (forall a, (forall i j, i < rows out -> j < cols out -> a <> addr2 out i j) -> m a = m0 a) /\ alloc m0 m.

Lemma writes1 out P (v : nat -> V) (g : nat -> mem V -> option (mem V)) m0 : wf1 m0 out -> P <= len out ->
  (forall n m, n < P -> off1 out m0 m -> g n m = put1 m out n (v n)) ->
  exists m', loop g 0 P m0 = Some m' /\ off1 out m0 m' /\
    forall n, n < len out -> m' (addr1 out n) = if n <? P then Some (v n) else m0 (addr1 out n).
Proof.
  intros [Al In] HP Hg.
  destruct (loop_inv g (fun k m => off1 out m0 m /\ forall n, n < len out -> m (addr1 out n) = if n <? k then Some (v n) else m0 (addr1 out n)) P 0 m0) as (m' & E & Q).
  - split; [split; [reflexivity | intros a Ha; exact Ha]|]. intros n Hn. destruct (Nat.ltb_spec n 0); [lia|reflexivity].
  - intros k m [_ Hk] [O C]. rewrite Hg by (try lia; exact O). rewrite put1_ok by (try lia; apply (proj2 O); apply Al; lia).
    eexists; split; [reflexivity|]. split; [split|].
    + intros a Ha. rewrite mupd_other by (apply Ha; lia). apply (proj1 O); exact Ha.
    + eapply alloc_trans; [exact (proj2 O)|]. apply mupd_alloc.
    + intros n Hn. destruct (Nat.eq_dec n k) as [-> | Ne].
      * rewrite mupd_same. destruct (Nat.ltb_spec k (k + 1)); [reflexivity|lia].
      * rewrite mupd_other by (intros e; apply Ne, In; auto; lia). rewrite C by lia.
        destruct (Nat.ltb_spec n k), (Nat.ltb_spec n (k + 1)); reflexivity || lia.
  - exists m'. split; [exact E|]. exact Q.
Qed.

Lemma writes2 out Pr Pc (b : nat -> nat -> bool) (v : nat -> nat -> V) (g : nat -> nat -> mem V -> option (mem V)) m0 :
  wf2 m0 out -> Pr <= rows out -> Pc <= cols out ->
  (forall r c m, r < Pr -> c < Pc -> off2 out m0 m -> g r c m = if b r c then put2 m out r c (v r c) else Some m) ->
  exists m', loop (fun r m => loop (fun c m => g r c m) 0 Pc m) 0 Pr m0 = Some m' /\ off2 out m0 m' /\
    forall i j, i < rows out -> j < cols out -> m' (addr2 out i j) = if (i <? Pr) && (j <? Pc) && b i j then Some (v i j) else m0 (addr2 out i j).
Proof.
  intros [Al In] HP HQ Hg.
  set (cond := fun (r c i j : nat) => ((i <? r) && (j <? Pc) || (i =? r) && (j <? c)) && b i j).
  set (inv := fun r c m => off2 out m0 m /\ forall i j, i < rows out -> j < cols out -> m (addr2 out i j) = if cond r c i j then Some (v i j) else m0 (addr2 out i j)).
  destruct (loop_inv (fun r m => loop (fun c m => g r c m) 0 Pc m) (fun r m => inv r 0 m) Pr 0 m0) as (m' & E & [O C]).
  - split; [split; [reflexivity | intros a Ha; exact Ha]|]. intros i j _ _. unfold cond. cbn. rewrite andb_false_r. reflexivity.
  - intros r m [_ Hr] I0.
    destruct (loop_inv (fun c m => g r c m) (fun c m => inv r c m) Pc 0 m) as (m1 & E1 & [O1 C1]).
    + exact I0.
    + intros c t [_ Hc] [O C]. rewrite Hg by (try lia; exact O).
      destruct (b r c) eqn:B.
      * assert (A : t (addr2 out r c) <> None) by (apply (proj2 O), Al; lia).
        exists (mupd t (addr2 out r c) (v r c)). split.
        { unfold put2. rewrite !assert_true by (apply Nat.ltb_lt; lia). unfold mstore. destruct (t (addr2 out r c)); [reflexivity|congruence]. }
        split; [split|].
        { intros a Ha. rewrite mupd_other by (apply Ha; lia). apply (proj1 O); exact Ha. }
        { eapply alloc_trans; [exact (proj2 O)|]. apply mupd_alloc. }
        intros i j Hi Hj. destruct (Nat.eq_dec i r) as [-> | Ni]; [destruct (Nat.eq_dec j c) as [-> | Nj]|].
        { rewrite mupd_same. unfold cond. rewrite B, Nat.eqb_refl. destruct (Nat.ltb_spec c (c + 1)); [|lia]. rewrite orb_true_r. reflexivity. }
        { rewrite mupd_other by (intros e; apply In in e; lia). rewrite C by lia. unfold cond.
          rewrite Nat.eqb_refl. destruct (Nat.ltb_spec j c), (Nat.ltb_spec j (c + 1)); try lia; reflexivity. }
        { rewrite mupd_other by (intros e; apply In in e; lia). rewrite C by lia. unfold cond.
          destruct (Nat.eqb_spec i r); [lia|]. reflexivity. }
      * exists t. split; [reflexivity|]. split; [exact O|]. intros i j Hi Hj. rewrite C by lia. unfold cond.
        destruct (Nat.eqb_spec i r) as [-> | Ni]; [|reflexivity].
        destruct (Nat.ltb_spec j c), (Nat.ltb_spec j (c + 1)); try lia; try reflexivity.
        assert (j = c) by lia. subst j. rewrite B, !andb_false_r. reflexivity.
    + exists m1. split; [exact E1|]. split; [exact O1|]. intros i j Hi Hj. rewrite C1 by lia. unfold cond. cbn [Nat.add].
      destruct (Nat.ltb_spec i r), (Nat.ltb_spec i (r + 1)), (Nat.eqb_spec i r), (Nat.eqb_spec i (r + 1)); try lia; cbn; rewrite ?orb_false_r, ?andb_false_r; reflexivity.
  - exists m'. split; [exact E|]. split; [exact O|]. intros i j Hi Hj. rewrite C by lia. unfold cond. cbn [Nat.add].
    change (j <? 0) with false. rewrite andb_false_r, orb_false_r. reflexivity.
Qed.
End W.

Section C.
Context {K : CRing}.
Add Ring Kring : (r_th K).
Local Open Scope cr_scope.
Implicit Types m : mem K.

Lemma acc_loop (f : nat -> K -> option K) (t : nat -> K) n : (forall k s, (k < n)%nat -> f k s = Some (s + t k)) ->
  forall s, loop f 0 n s = Some (s + sum t n).
Proof.
  intros H s. destruct (loop_inv f (fun k x => x = s + sum t k) n 0 s) as (s' & E & ->).
  - cbn. ring.
  - intros k x [_ Hk] ->. rewrite H by lia. eexists; split; [reflexivity|]. rewrite Nat.add_1_r. cbn. ring.
  - exact E.
Qed.
Lemma sum_pick (N k p : nat) (t : nat -> K) :
  sum (fun j => if (k + j =? p)%nat then t j else 0) N = if (k <=? p)%nat && (p - k <? N)%nat then t (p - k)%nat else 0.
Proof.
  induction N as [|N IH].
  - cbn [sum]. destruct (Nat.ltb_spec (p - k) 0); [lia|]. rewrite andb_false_r. reflexivity.
  - cbn [sum]. rewrite IH. destruct (Nat.leb_spec k p); cbn [andb].
    + destruct (Nat.ltb_spec (p - k) N), (Nat.ltb_spec (p - k) (S N)), (Nat.eqb_spec (k + N) p); try lia; try ring.
      replace (p - k)%nat with N by lia. ring.
    + destruct (Nat.eqb_spec (k + N) p); [lia|]. ring.
Qed.
Lemma lin_conv_eq M N h (x : nat -> K) p : lin_conv M N h x p = sum (fun k => if (k <=? p)%nat && (p - k <? N)%nat then h k * x (p - k)%nat else 0) M.
Proof. apply sum_ext. intros k _. apply sum_pick. Qed.
Lemma lin_conv2_eq Mr Mc Nr Nc h (x : nat -> nat -> K) p q : lin_conv2 Mr Mc Nr Nc h x p q =
  sum (fun k => sum (fun l => if (k <=? p)%nat && (p - k <? Nr)%nat && (l <=? q)%nat && (q - l <? Nc)%nat then h k l * x (p - k)%nat (q - l)%nat else 0) Mc) Mr.
Proof.
  apply sum_ext. intros k _. apply sum_ext. intros l _.
  rewrite (sum_ext _ _ (fun i => if (k + i =? p)%nat then (if (l <=? q)%nat && (q - l <? Nc)%nat then h k l * x i (q - l)%nat else 0) else 0)).
  - rewrite sum_pick. destruct (k <=? p)%nat, (p - k <? Nr)%nat; cbn [andb]; reflexivity.
  - intros i _. destruct (k + i =? p)%nat; cbn [andb].
    + apply sum_pick.
    + apply sum_0. reflexivity.
Qed.

Lemma bget_nth (h : list K) k : (k < length h)%nat -> bget h k = Some (nth k h 0).
Proof. intros H. unfold bget. apply nth_error_nth'. exact H. Qed.

(** One output sample of each 1-D kernel loop. *)
Lemma sample1_guard (h : list K) inp N x m p : len inp = N -> holds1 m inp x ->
  loop (fun k s => if (k <=? p)%nat && (p - k <? N)%nat then c <- bget h k ;; x <- get1 m inp (p - k)%nat ;; Some (s + c * x) else Some s) 0 (length h) 0
  = Some (lin_conv (length h) N (fun k => nth k h 0) x p).
Proof.
  intros HN H. rewrite (acc_loop _ (fun k => if (k <=? p)%nat && (p - k <? N)%nat then nth k h 0 * x (p - k)%nat else 0)).
  - rewrite lin_conv_eq. f_equal. ring.
  - intros k s Hk. destruct (Nat.leb_spec k p), (Nat.ltb_spec (p - k) N); cbn [andb]; try (f_equal; ring).
    rewrite bget_nth by lia. cbn [bind]. rewrite get1_ok by lia. rewrite H by lia. reflexivity.
Qed.
Lemma sample1_min (h : list K) inp N x m q : len inp = N -> holds1 m inp x -> (0 < length h)%nat -> (q + (length h - 1) < N)%nat ->
  (M1 <- usub (length h) 1 ;;
    loop (fun k s => o <- usub (q + M1) k ;; c <- bget h k ;; x <- get1 m inp o ;; Some (s + c * x)) 0 (length h) 0)
  = Some (lin_conv (length h) N (fun k => nth k h 0) x (q + (length h - 1))).
Proof.
  intros HN H HM Hq. rewrite usub_ok by lia. cbn [bind].
  rewrite (acc_loop _ (fun k => nth k h 0 * x (q + (length h - 1) - k)%nat)).
  - rewrite lin_conv_eq. f_equal. transitivity (sum (fun k => nth k h 0 * x (q + (length h - 1) - k)%nat) (length h)); [ring|].
    apply sum_ext. intros k Hk. destruct (Nat.leb_spec k (q + (length h - 1))), (Nat.ltb_spec (q + (length h - 1) - k) N); cbn [andb]; reflexivity || lia.
  - intros k s Hk. rewrite usub_ok by lia. cbn [bind]. rewrite bget_nth by lia. cbn [bind]. rewrite get1_ok by lia. rewrite H by lia. reflexivity.
Qed.
Lemma holds1_off out inp x m0 m : disjoint1 out inp -> off1 out m0 m -> holds1 m0 inp x -> holds1 m inp x.
Proof. intros D [O _] H i Hi. rewrite O; [apply H; exact Hi|]. intros j Hj e. apply (D j i); auto. Qed.
Lemma holds2_off out inp x m0 m : disjoint2 out inp -> off2 out m0 m -> holds2 m0 inp x -> holds2 m inp x.
Proof. intros D [O _] H i j Hi Hj. rewrite O; [apply H; assumption|]. intros a b Ha Hb e. apply (D a b i j); auto. Qed.

(** The sample at output position [n] lies in the region. *)
Definition in_region R M N p := (first_sample R M <= p <= last_sample R M N)%nat.
Lemma conv1_ok R (h : list K) inp out D x m : (0 < length h)%nat -> (0 < D)%nat -> wf1 m out -> disjoint1 out inp -> holds1 m inp x ->
  (0 < len out)%nat -> (Z.of_nat (len inp) < W64)%Z ->
  (R = support_min -> forall n, (n < len out)%nat -> (n * D + first_sample R (length h) <= last_sample R (length h) (len inp))%nat /\ (length h <= len inp)%nat) ->
  exists m', conv1 R h inp (len inp) out (len out) D m = Some m' /\ off1 out m m' /\
   forall n, (n < len out)%nat -> m' (addr1 out n) = Some (lin_conv (length h) (len inp) (fun k => nth k h 0) x (n * D + first_sample R (length h))).
Proof.
  intros HM HD W Dj H HP HW Hmin.
  assert (G : forall e, (forall n m', (n < len out)%nat -> holds1 m' inp x -> e n m' = Some (lin_conv (length h) (len inp) (fun k => nth k h 0) x (n * D + first_sample R (length h)))) ->
    exists m', loop1 (len out) out e m = Some m' /\ off1 out m m' /\
     forall n, (n < len out)%nat -> m' (addr1 out n) = Some (lin_conv (length h) (len inp) (fun k => nth k h 0) x (n * D + first_sample R (length h)))).
  { intros e He.
    destruct (writes1 out (len out) (fun n => lin_conv (length h) (len inp) (fun k => nth k h 0) x (n * D + first_sample R (length h))) (fun n m => s <- e n m ;; put1 m out n s) m) as (m' & E & O & Q); auto.
    - intros n m' Hn Ho. rewrite He; [reflexivity|assumption|]. eapply holds1_off; eassumption.
    - exists m'. split; [exact E|]. split; [exact O|]. intros n Hn. rewrite Q by exact Hn. destruct (Nat.ltb_spec n (len out)); [reflexivity|lia]. }
  destruct R; cbn [conv1 first_sample].
  - apply G. intros n m' Hn Hm. rewrite Nat.add_0_r. apply sample1_guard; auto.
  - apply G. intros n m' Hn Hm. apply sample1_guard; auto.
  - unfold conv_min1. specialize (Hmin eq_refl). cbn [first_sample last_sample] in Hmin. rewrite assert_true.
    + apply G. intros n m' Hn Hm. apply sample1_min; auto. destruct (Hmin n Hn). lia.
    + apply Z.ltb_lt. destruct (Hmin (len out - 1)%nat ltac:(lia)) as [A B].
      assert (Z.of_nat (len out - 1) * Z.of_nat D + Z.of_nat (length h - 1) <= Z.of_nat (len inp) - 1)%Z by (rewrite <- Nat2Z.inj_mul; lia).
      assert (0 <= Z.of_nat (len out - 1) * Z.of_nat D)%Z by (apply Z.mul_nonneg_nonneg; lia).
      assert (Z.of_nat (len out - 1) <= Z.of_nat (len out - 1) * Z.of_nat D)%Z by (rewrite <- Nat2Z.inj_mul; apply Nat2Z.inj_le; rewrite <- (Nat.mul_1_r (len out - 1)) at 1; apply Nat.mul_le_mono_l; lia).
      unfold u64. rewrite (Z.mod_small (Z.of_nat (len out) - 1)) by lia.
      replace (Z.of_nat (len out) - 1)%Z with (Z.of_nat (len out - 1)) by lia.
      replace (Z.of_nat (length h) - 1)%Z with (Z.of_nat (length h - 1)) by lia.
      rewrite Z.mod_small by lia. lia.
Qed.

(** Output sizes. *)
Lemma out_size R (M N D : nat) : (0 < M)%nat -> (0 < N)%nat -> (0 < D)%nat -> (R = support_min -> (M <= N)%nat) -> (Z.of_nat (N + M) < W64)%Z ->
  exists P, conv_dim_output_size R (Z.of_nat M) (Z.of_nat N) (Z.of_nat D) = Z.of_nat P /\ (0 < P)%nat /\
    forall n, (n < P)%nat <-> (n * D + first_sample R M <= last_sample R M N)%nat.
Proof.
  intros HM HN HD Hmin HW.
  assert (dv : forall t, (t < N + M)%nat -> u64 (u64 (Z.of_nat t) / Z.of_nat D + 1) = Z.of_nat (t / D + 1)).
  { intros t Ht. unfold u64. rewrite (Z.mod_small (Z.of_nat t)) by lia. rewrite <- Nat2Z.inj_div.
    assert (t / D <= t)%nat by (apply Nat.div_le_upper_bound; nia). generalize dependent (t / D)%nat. intros q Hq. rewrite Z.mod_small by lia. lia. }
  assert (lt : forall t n, (n < t / D + 1 <-> n * D <= t)%nat).
  { intros t n. rewrite Nat.add_1_r, Nat.lt_succ_r. split; intros H.
    - pose proof (Nat.mul_div_le t D). pose proof (Nat.mul_le_mono_r _ _ D H). lia.
    - apply Nat.div_le_lower_bound; lia. }
  destruct R; cbn [conv_dim_output_size first_sample last_sample].
  - exists ((N + M - 2) / D + 1)%nat. split; [|split; [rewrite Nat.add_1_r; apply Nat.lt_0_succ|]].
    + rewrite <- dv by lia. do 4 f_equal. lia.
    + intros n. rewrite lt. lia.
  - exists ((N - 1) / D + 1)%nat. split; [|split; [rewrite Nat.add_1_r; apply Nat.lt_0_succ|]].
    + rewrite <- dv by lia. do 4 f_equal. lia.
    + intros n. rewrite lt. lia.
  - specialize (Hmin eq_refl). set (t := (N - M + 1)%nat).
    assert (Et : u64 (Z.of_nat N - Z.of_nat M + 1) = Z.of_nat t) by (unfold u64; rewrite Z.mod_small; unfold t; lia).
    rewrite Et. pose proof (Nat.div_mod t D ltac:(lia)) as DM. pose proof (Nat.mod_upper_bound t D ltac:(lia)) as MB.
    assert (Hle : (t / D <= t)%nat) by (apply Nat.div_le_upper_bound; nia).
    rewrite <- Nat2Z.inj_div, <- Nat2Z.inj_mod. exists (t / D + if t mod D =? 0 then 0 else 1)%nat.
    assert (Tb : (0 < t < N + M)%nat) by (unfold t; lia).
    assert (E : forall n, (n * D + (M - 1) <= N - 1 <-> n * D < t)%nat) by (intros n; unfold t; lia).
    clearbody t. clear Et. generalize dependent (t mod D)%nat. generalize dependent (t / D)%nat. intros q Hle r DM MB.
    split; [|split].
    + unfold u64. destruct (Nat.eqb_spec r 0) as [e|e], (Z.eqb_spec (Z.of_nat r) 0) as [e'|e']; try lia; rewrite Z.mod_small; lia.
    + destruct (Nat.eqb_spec r 0) as [e|e]; [|lia]. destruct q; [lia|lia].
    + intros n. rewrite E. clear E. split; intros H.
      * destruct (Nat.eqb_spec r 0) as [e|e].
        { assert (H0 : (n + 1 <= q)%nat) by lia. pose proof (Nat.mul_le_mono_r _ _ D H0). lia. }
        { assert (H0 : (n <= q)%nat) by lia. pose proof (Nat.mul_le_mono_r _ _ D H0). lia. }
      * destruct (Nat.eqb_spec r 0) as [e|e].
        { destruct (Nat.le_gt_cases q n) as [H0|H0]; [|lia]. pose proof (Nat.mul_le_mono_r _ _ D H0). lia. }
        { destruct (Nat.le_gt_cases (q + 1) n) as [H0|H0]; [|lia]. pose proof (Nat.mul_le_mono_r _ _ D H0). lia. }
Qed.

(** Kernels *)
Lemma copy1_ok n d0 s0 ss (src dst : list K) (f : nat -> nat) : (d0 + n <= length dst)%nat ->
  (forall i, (i < n)%nat -> (s0 + Z.of_nat i * ss)%Z = Z.of_nat (f i) /\ (f i < length src)%nat) ->
  exists a, copy1 n (Z.of_nat d0) s0 ss src dst = Some a /\ length a = length dst /\
    forall j, nth j a 0 = if (d0 <=? j)%nat && (j <? d0 + n)%nat then nth (f (j - d0)%nat) src 0 else nth j dst 0.
Proof.
  intros Hd Hf. unfold copy1.
  match goal with |- exists a, loop ?F _ _ _ = _ /\ _ => destruct (loop_inv F (fun k a => length a = length dst /\
    forall j, nth j a 0 = if (d0 <=? j)%nat && (j <? d0 + k)%nat then nth (f (j - d0)%nat) src 0 else nth j dst 0) n 0 dst) as (a & E & Q) end.
  - split; [reflexivity|]. intros j. destruct (Nat.leb_spec d0 j), (Nat.ltb_spec j (d0 + 0)); try lia; reflexivity.
  - intros k a [_ Hk] [L C]. destruct (Hf k ltac:(lia)) as [E1 E2]. rewrite E1.
    rewrite assert_true by (apply andb_true_iff; split; apply Z.leb_le; lia).
    replace (Z.of_nat d0 + Z.of_nat k)%Z with (Z.of_nat (d0 + k)) by lia. rewrite !Nat2Z.id.
    rewrite bget_nth by lia. cbn [bind]. rewrite bput_some by lia. eexists; split; [reflexivity|].
    split; [rewrite lset_length; exact L|]. intros j.
    assert (Hn : nth j (lset a (d0 + k) (nth (f k) src 0)) 0 = if (j =? d0 + k)%nat then nth (f k) src 0 else nth j a 0).
    { destruct (Nat.lt_ge_cases j (length a)) as [Hj|Hj].
      - apply nth_error_nth. rewrite lset_nth. destruct (Nat.eqb_spec j (d0 + k)).
        + destruct (Nat.ltb_spec (d0 + k) (length a)); [reflexivity|lia].
        + apply nth_error_nth'. exact Hj.
      - destruct (Nat.eqb_spec j (d0 + k)); [lia|]. rewrite !nth_overflow; auto. rewrite lset_length. lia. }
    rewrite Hn. clear Hn. destruct (Nat.eqb_spec j (d0 + k)) as [Ej | Nj]; [rewrite Ej; clear Ej|].
    + destruct (Nat.leb_spec d0 (d0 + k)), (Nat.ltb_spec (d0 + k) (d0 + (k + 1))); try lia. cbn [andb]. do 2 f_equal. lia.
    + rewrite C. destruct (Nat.leb_spec d0 j), (Nat.ltb_spec j (d0 + k)), (Nat.ltb_spec j (d0 + (k + 1))); try lia; reflexivity.
  - exists a. split; [exact E|]. exact Q.
Qed.

Lemma nth_ext0 (a b : list K) : length a = length b -> (forall j, (j < length a)%nat -> nth j a 0 = nth j b 0) -> a = b.
Proof. intros L H. apply nth_ext with (d := 0) (d' := 0); auto. Qed.
Lemma kernel1_ok S (c h : list K) : (0 < length c)%nat -> full_kernel S c h -> conv_kernel1 S c = Some h.
Proof.
  intros Hc HF. unfold conv_kernel1.
  assert (Mir : (S <> nonsym) -> length h = (if match S with sym_even_len_odd => true | _ => false end then 2 * length c - 1 else 2 * length c)%nat /\
     (forall j, (j < length c)%nat -> nth j h 0 = nth j c 0) /\ (forall j, (j < length h)%nat -> nth j h 0 = nth (length h - 1 - j) h 0)).
  { intros NS. assert (X : firstn (length c) h = c /\ rev h = h /\ length h = (if match S with sym_even_len_odd => true | _ => false end then 2 * length c - 1 else 2 * length c)%nat).
    { destruct S; [congruence| |]; cbn in HF; destruct HF as (A & B & C); auto. }
    destruct X as (A & B & L). split; [exact L|]. split.
    - intros j Hj. rewrite <- A. rewrite first_nth; auto.
    - intros j Hj. rewrite <- B at 1. rewrite rev_nth by lia. f_equal. lia. }
  destruct S.
  - cbn in HF. subst h.
    destruct (copy1_ok (length c) 0 0 1 c (repeat 0 (length c)) (fun i => i)) as (a & E & L & C); [rewrite repeat_length; lia | intros; lia |].
    change (Z.of_nat 0) with 0%Z in E. rewrite E. f_equal. rewrite repeat_length in L. apply nth_ext0; [exact L|]. intros j Hj. rewrite C.
    destruct (Nat.leb_spec 0 j), (Nat.ltb_spec j (0 + length c)); try lia. cbn [andb]. rewrite Nat.sub_0_r. reflexivity.
  - destruct Mir as (L & Lo & Sy); [discriminate|]. rewrite !usub_ok by lia. cbn [bind].
    destruct (copy1_ok (length c) 0 0 1 c (repeat 0 (2 * length c - 1)) (fun i => i)) as (a & E & La & Ca); [rewrite repeat_length; lia | intros; lia |].
    change (Z.of_nat 0) with 0%Z in E. rewrite E. cbn [bind]. rewrite repeat_length in La.
    destruct (copy1_ok (length c - 1) (length c) (Z.of_nat (length c) - 2) (-1) c a (fun i => length c - 2 - i)%nat) as (a' & E' & La' & Ca'); [lia | intros; lia |].
    rewrite E'. f_equal. apply nth_ext0; [lia|]. intros j Hj. rewrite Ca', Ca.
    destruct (Nat.leb_spec (length c) j), (Nat.ltb_spec j (length c + (length c - 1))); cbn [andb]; try lia.
    + rewrite Sy by lia. rewrite Lo by lia. f_equal. lia.
    + destruct (Nat.leb_spec 0 j), (Nat.ltb_spec j (0 + length c)); try lia. cbn [andb]. rewrite Nat.sub_0_r. symmetry; apply Lo. lia.
  - destruct Mir as (L & Lo & Sy); [discriminate|].
    destruct (copy1_ok (length c) 0 0 1 c (repeat 0 (2 * length c)) (fun i => i)) as (a & E & La & Ca); [rewrite repeat_length; lia | intros; lia |].
    change (Z.of_nat 0) with 0%Z in E. rewrite E. cbn [bind]. rewrite repeat_length in La.
    destruct (copy1_ok (length c) (length c) (Z.of_nat (length c) - 1) (-1) c a (fun i => length c - 1 - i)%nat) as (a' & E' & La' & Ca'); [lia | intros; lia |].
    rewrite E'. f_equal. apply nth_ext0; [lia|]. intros j Hj. rewrite Ca', Ca.
    destruct (Nat.leb_spec (length c) j), (Nat.ltb_spec j (length c + length c)); cbn [andb]; try lia.
    + rewrite Sy by lia. rewrite Lo by lia. f_equal. lia.
    + destruct (Nat.leb_spec 0 j), (Nat.ltb_spec j (0 + length c)); try lia. cbn [andb]. rewrite Nat.sub_0_r. symmetry; apply Lo. lia.
Qed.

Lemma kget_ok (a : kmat K) i j : (i < kr a)%nat -> (j < kc a)%nat -> kget a (Z.of_nat i) (Z.of_nat j) = Some (kv a i j).
Proof.
  intros Hi Hj. unfold kget. rewrite assert_true.
  - rewrite !Nat2Z.id. reflexivity.
  - rewrite !andb_true_iff. repeat split; try apply Z.leb_le; try apply Z.ltb_lt; lia.
Qed.
Definition outside (n m dr dc : nat) (dst a : kmat K) := kr a = kr dst /\ kc a = kc dst /\
  forall i j, ~ (dr <= i < dr + n /\ dc <= j < dc + m)%nat -> kv a i j = kv dst i j.
Lemma copy2_ok (n m dr dc : nat) sr tr sc tc src (dst : kmat K) (fr fc : nat -> nat) (w : nat -> nat -> K) : (dr + n <= kr dst)%nat -> (dc + m <= kc dst)%nat ->
  (forall i, (i < n)%nat -> (sr + Z.of_nat i * tr)%Z = Z.of_nat (fr i)) -> (forall j, (j < m)%nat -> (sc + Z.of_nat j * tc)%Z = Z.of_nat (fc j)) ->
  (forall i j a, (i < n)%nat -> (j < m)%nat -> outside n m dr dc dst a -> (fr i < kr (src a))%nat /\ (fc j < kc (src a))%nat /\ kv (src a) (fr i) (fc j) = w i j) ->
  exists a, copy2 n m (Z.of_nat dr) (Z.of_nat dc) sr tr sc tc src dst = Some a /\ kr a = kr dst /\ kc a = kc dst /\
    forall i j, kv a i j = if (dr <=? i)%nat && (i <? dr + n)%nat && (dc <=? j)%nat && (j <? dc + m)%nat then w (i - dr)%nat (j - dc)%nat else kv dst i j.
Proof.
  intros Hn Hm Hr Hc Hw. unfold copy2.
  set (cond := fun (p q i j : nat) => ((dr <=? i) && (i <? dr + p) && (dc <=? j) && (j <? dc + m) || (i =? dr + p) && (dc <=? j) && (j <? dc + q))%nat).
  set (inv := fun p q (a : kmat K) => kr a = kr dst /\ kc a = kc dst /\ forall i j, kv a i j = if cond p q i j then w (i - dr)%nat (j - dc)%nat else kv dst i j).
  assert (bl : forall x y, (x <=? y)%nat = true \/ (x <=? y)%nat = false) by (intros; destruct (x <=? y)%nat; auto).
  match goal with |- exists a, loop ?F _ _ _ = _ /\ _ => destruct (loop_inv F (fun p a => inv p 0%nat a) n 0 dst) as (a & E & Q) end.
  - split; [reflexivity|]. split; [reflexivity|]. intros i j. unfold cond.
    destruct (Nat.leb_spec dr i), (Nat.ltb_spec i (dr + 0)), (Nat.eqb_spec i (dr + 0)), (Nat.leb_spec dc j), (Nat.ltb_spec j (dc + 0)); try lia; cbn [andb orb]; reflexivity.
  - intros p a [_ Hp] I0.
    match goal with |- exists t, loop ?F _ _ _ = _ /\ _ => destruct (loop_inv F (fun q a => inv p q a) m 0 a) as (a1 & E1 & Q1) end.
    + exact I0.
    + intros q b [_ Hq] (R1 & C1 & V1). rewrite Hr, Hc by lia.
      destruct (Hw p q b ltac:(lia) ltac:(lia)) as (B1 & B2 & B3).
      { split; [exact R1|]. split; [exact C1|]. intros i j Ho. rewrite V1. unfold cond.
        destruct (Nat.leb_spec dr i), (Nat.ltb_spec i (dr + p)), (Nat.eqb_spec i (dr + p)), (Nat.leb_spec dc j), (Nat.ltb_spec j (dc + m)), (Nat.ltb_spec j (dc + q)); try lia; cbn [andb orb]; try reflexivity; exfalso; apply Ho; lia. }
      rewrite kget_ok by assumption. cbn [bind]. rewrite B3.
      replace (Z.of_nat dr + Z.of_nat p)%Z with (Z.of_nat (dr + p)) by lia. replace (Z.of_nat dc + Z.of_nat q)%Z with (Z.of_nat (dc + q)) by lia.
      unfold kput. rewrite assert_true by (rewrite !andb_true_iff; repeat split; try apply Z.leb_le; try apply Z.ltb_lt; lia).
      rewrite !Nat2Z.id. eexists; split; [reflexivity|]. split; [exact R1|]. split; [exact C1|]. cbn [kv]. intros i j. rewrite V1. unfold cond.
      destruct (Nat.eqb_spec i (dr + p)) as [Ei|Ni]; cbn [andb].
      * rewrite Ei. destruct (Nat.eqb_spec j (dc + q)) as [Ej|Nj].
        { rewrite Ej. destruct (Nat.ltb_spec (dr + p) (dr + p)); [lia|]. rewrite !andb_false_r. cbn [andb orb].
          destruct (Nat.leb_spec dc (dc + q)), (Nat.ltb_spec (dc + q) (dc + (q + 1))); try lia. cbn [andb]. f_equal; lia. }
        { destruct (Nat.leb_spec dc j), (Nat.ltb_spec j (dc + q)), (Nat.ltb_spec j (dc + (q + 1))); try lia; reflexivity. }
      * reflexivity.
    + exists a1. split; [exact E1|]. destruct Q1 as (R1 & C1 & V1). split; [exact R1|]. split; [exact C1|]. intros i j. rewrite V1. unfold cond. cbn [Nat.add].
      replace (if (_ || (i =? dr + (p + 1))%nat && (dc <=? j)%nat && (j <? dc + 0)%nat) then w (i - dr)%nat (j - dc)%nat else kv dst i j)
        with (if ((dr <=? i) && (i <? dr + (p + 1)) && (dc <=? j) && (j <? dc + m))%nat then w (i - dr)%nat (j - dc)%nat else kv dst i j).
      2:{ destruct (Nat.leb_spec dc j), (Nat.ltb_spec j (dc + 0)); try lia; cbn [andb]; rewrite ?andb_false_r, ?orb_false_r; reflexivity. }
      destruct (Nat.leb_spec dr i), (Nat.ltb_spec i (dr + p)), (Nat.ltb_spec i (dr + (p + 1))), (Nat.eqb_spec i (dr + p)); try lia; cbn [andb orb]; rewrite ?orb_false_r; reflexivity.
  - exists a. split; [exact E|]. destruct Q as (R1 & C1 & V1). split; [exact R1|]. split; [exact C1|]. intros i j. rewrite V1. unfold cond. cbn [Nat.add].
    destruct (Nat.leb_spec dc j), (Nat.ltb_spec j (dc + 0)); try lia; cbn [andb]; rewrite ?andb_false_r, ?orb_false_r; reflexivity.
Qed.
Lemma kernel2_ok S (c : kmat K) : (0 < kr c)%nat -> (0 < kc c)%nat -> exists h, conv_kernel2 S c = Some h /\ full_kernel2 S c h.
Proof.
  intros Hr Hc. unfold conv_kernel2. set (Mr := kr c) in *. set (Mc := kc c) in *.
  assert (first : forall Lr Lc, (Mr <= Lr)%nat -> (Mc <= Lc)%nat ->
    exists a, copy2 Mr Mc 0 0 0 1 0 1 (fun _ => c) (kzero Lr Lc) = Some a /\ kr a = Lr /\ kc a = Lc /\ forall i j, (i < Mr)%nat -> (j < Mc)%nat -> kv a i j = kv c i j).
  { intros Lr Lc H1 H2.
    destruct (copy2_ok Mr Mc 0 0 0 1 0 1 (fun _ => c) (kzero Lr Lc) (fun i => i) (fun j => j) (fun i j => kv c i j)) as (a & E & R1 & C1 & V1); cbn [kr kc kzero] in *; try lia.
    - intros i j a Hi Hj _. auto.
    - exists a. split; [exact E|]. split; [exact R1|]. split; [exact C1|]. intros i j Hi Hj. rewrite V1.
      destruct (Nat.leb_spec 0 i), (Nat.ltb_spec i (0 + Mr)), (Nat.leb_spec 0 j), (Nat.ltb_spec j (0 + Mc)); try lia. cbn [andb]. rewrite !Nat.sub_0_r. reflexivity. }
  assert (mirror : forall e, (e <= 1)%nat ->
    exists a, (a <- copy2 Mr Mc 0 0 0 1 0 1 (fun _ => c) (kzero (2 * Mr - e) (2 * Mc - e)) ;;
       a <- copy2 Mr (Mc - e) 0 (Z.of_nat Mc) 0 1 (Z.of_nat Mc - 1 - Z.of_nat e) (-1) (fun _ => c) a ;;
       copy2 (Mr - e) (2 * Mc - e) (Z.of_nat Mr) 0 (Z.of_nat Mr - 1 - Z.of_nat e) (-1) 0 1 (fun a => a) a) = Some a /\
     kr a = (2 * Mr - e)%nat /\ kc a = (2 * Mc - e)%nat /\ forall i j, (i < kr a)%nat -> (j < kc a)%nat -> kv a i j = kv c (fold_index (kr a) i) (fold_index (kc a) j)).
  { intros e He. destruct (first (2 * Mr - e)%nat (2 * Mc - e)%nat) as (a1 & E1 & R1 & C1 & V1); try lia. rewrite E1. cbn [bind].
    destruct (copy2_ok Mr (Mc - e) 0 Mc 0 1 (Z.of_nat Mc - 1 - Z.of_nat e) (-1) (fun _ => c) a1 (fun i => i) (fun j => Mc - 1 - e - j)%nat (fun i j => kv c i (Mc - 1 - e - j)%nat)) as (a2 & E2 & R2 & C2 & V2); try lia.
    { intros i j a Hi Hj _. split; [exact Hi|]. split; [fold Mc; lia|]. reflexivity. }
    change (Z.of_nat 0) with 0%Z in E2. rewrite E2. cbn [bind].
    assert (V2' : forall i j, (i < Mr)%nat -> (j < 2 * Mc - e)%nat -> kv a2 i j = kv c i (fold_index (2 * Mc - e) j)).
    { intros i j Hi Hj. rewrite V2. unfold fold_index. destruct (Nat.leb_spec 0 i), (Nat.ltb_spec i (0 + Mr)), (Nat.leb_spec Mc j), (Nat.ltb_spec j (Mc + (Mc - e))); try lia; cbn [andb].
      - f_equal; lia.
      - rewrite V1 by lia. f_equal; lia. }
    destruct (copy2_ok (Mr - e) (2 * Mc - e) Mr 0 (Z.of_nat Mr - 1 - Z.of_nat e) (-1) 0 1 (fun a => a) a2 (fun i => Mr - 1 - e - i)%nat (fun j => j) (fun i j => kv c (Mr - 1 - e - i)%nat (fold_index (2 * Mc - e) j))) as (a3 & E3 & R3 & C3 & V3); try lia.
    { intros i j a Hi Hj (A1 & A2 & A3). split; [lia|]. split; [lia|]. rewrite A3 by lia. apply V2'; lia. }
    change (Z.of_nat 0) with 0%Z in E3. exists a3. split; [exact E3|]. rewrite R3, R2, R1, C3, C2, C1. split; [reflexivity|]. split; [reflexivity|].
    intros i j Hi Hj. rewrite V3. destruct (Nat.leb_spec Mr i), (Nat.ltb_spec i (Mr + (Mr - e))), (Nat.leb_spec 0 j), (Nat.ltb_spec j (0 + (2 * Mc - e))); try lia; cbn [andb].
    - rewrite Nat.sub_0_r. f_equal. unfold fold_index. lia.
    - rewrite V2' by lia. f_equal. unfold fold_index. lia. }
  destruct S; cbn [full_kernel2].
  - destruct (first Mr Mc) as (a & E & R1 & C1 & V1); try lia. exists a. split; [exact E|]. fold Mr Mc. repeat split; try assumption. intros i j Hi Hj. apply V1; lia.
  - destruct (mirror 1%nat) as (a & E & R1 & C1 & V1); try lia. rewrite !usub_ok by lia. cbn [bind].
    replace (Z.of_nat Mc - 2)%Z with (Z.of_nat Mc - 1 - Z.of_nat 1)%Z by lia. replace (Z.of_nat Mr - 2)%Z with (Z.of_nat Mr - 1 - Z.of_nat 1)%Z by lia.
    exists a. split; [exact E|]. auto.
  - destruct (mirror 0%nat) as (a & E & R1 & C1 & V1); try lia. rewrite !Nat.sub_0_r in E. rewrite !Z.sub_0_r in E.
    exists a. split; [exact E|]. rewrite !Nat.sub_0_r in *. auto.
Qed.

(** 2-D samples *)
Lemma get2_ok (m : mem K) b i j : (i < rows b)%nat -> (j < cols b)%nat -> get2 m b i j = m (addr2 b i j).
Proof. intros Hi Hj. unfold get2. rewrite !assert_true by (apply Nat.ltb_lt; assumption). reflexivity. Qed.
Lemma acc_loop2 (f : nat -> nat -> K -> option K) (t : nat -> nat -> K) n n' : (forall k l s, (k < n)%nat -> (l < n')%nat -> f k l s = Some (s + t k l)) ->
  loop (fun k s => loop (fun l s => f k l s) 0 n' s) 0 n 0 = Some (sum (fun k => sum (fun l => t k l) n') n).
Proof.
  intros H. rewrite (acc_loop _ (fun k => sum (fun l => t k l) n')).
  - f_equal. ring.
  - intros k s Hk. apply acc_loop. intros l s' Hl. apply H; assumption.
Qed.
Lemma sample2_guard (h : kmat K) inp x m p q : holds2 m inp x ->
  loop (fun rr s => loop (fun cc s =>
      if (rr <=? p)%nat && (p - rr <? rows inp)%nat && (cc <=? q)%nat && (q - cc <? cols inp)%nat
      then w <- tap h rr cc ;; x <- get2 m inp (p - rr)%nat (q - cc)%nat ;; Some (s + w * x) else Some s) 0 (kc h) s) 0 (kr h) 0
  = Some (lin_conv2 (kr h) (kc h) (rows inp) (cols inp) (kv h) x p q).
Proof.
  intros H. rewrite (acc_loop2 _ (fun k l => if (k <=? p)%nat && (p - k <? rows inp)%nat && (l <=? q)%nat && (q - l <? cols inp)%nat then kv h k l * x (p - k)%nat (q - l)%nat else 0)).
  - rewrite lin_conv2_eq. reflexivity.
  - intros k l s Hk Hl.
    destruct (Nat.leb_spec k p), (Nat.ltb_spec (p - k) (rows inp)), (Nat.leb_spec l q), (Nat.ltb_spec (q - l) (cols inp)); cbn [andb]; try (f_equal; ring).
    unfold tap. rewrite kget_ok by assumption. cbn [bind]. rewrite get2_ok by lia. rewrite H by lia. reflexivity.
Qed.
Lemma sample2_min (h : kmat K) inp x m p q : holds2 m inp x -> (0 < kr h)%nat -> (0 < kc h)%nat -> (p + (kr h - 1) < rows inp)%nat -> (q + (kc h - 1) < cols inp)%nat ->
  (r1 <- usub (kr h) 1 ;; c1 <- usub (kc h) 1 ;;
    loop (fun rr s => loop (fun cc s =>
      a <- usub (p + r1) rr ;; b <- usub (q + c1) cc ;;
      w <- tap h rr cc ;; x <- get2 m inp a b ;; Some (s + w * x)) 0 (kc h) s) 0 (kr h) 0)
  = Some (lin_conv2 (kr h) (kc h) (rows inp) (cols inp) (kv h) x (p + (kr h - 1)) (q + (kc h - 1))).
Proof.
  intros H Hr Hc Hp Hq. rewrite !usub_ok by lia. cbn [bind].
  rewrite (acc_loop2 _ (fun k l => kv h k l * x (p + (kr h - 1) - k)%nat (q + (kc h - 1) - l)%nat)).
  - rewrite lin_conv2_eq. f_equal. apply sum_ext. intros k Hk. apply sum_ext. intros l Hl.
    destruct (Nat.leb_spec k (p + (kr h - 1))), (Nat.ltb_spec (p + (kr h - 1) - k) (rows inp)), (Nat.leb_spec l (q + (kc h - 1))), (Nat.ltb_spec (q + (kc h - 1) - l) (cols inp)); try lia; reflexivity.
  - intros k l s Hk Hl. rewrite !usub_ok by lia. cbn [bind]. unfold tap. rewrite kget_ok by assumption. cbn [bind]. rewrite get2_ok by lia. rewrite H by lia. reflexivity.
Qed.
Definition sample2 R (h : kmat K) inp x D n1 n2 :=
  lin_conv2 (kr h) (kc h) (rows inp) (cols inp) (kv h) x (n1 * D + first_sample R (kr h)) (n2 * D + first_sample R (kc h)).
Lemma loop2_ok (out inp : block2) x m Pr Pc e (v : nat -> nat -> K) : wf2 m out -> disjoint2 out inp -> holds2 m inp x -> (Pr <= rows out)%nat -> (Pc <= cols out)%nat ->
  (forall r c m', (r < Pr)%nat -> (c < Pc)%nat -> holds2 m' inp x -> e r c m' = Some (v r c)) ->
  exists m', loop2 Pr Pc out e m = Some m' /\ off2 out m m' /\
    forall i j, (i < rows out)%nat -> (j < cols out)%nat -> m' (addr2 out i j) = if (i <? Pr)%nat && (j <? Pc)%nat then Some (v i j) else m (addr2 out i j).
Proof.
  intros W Dj H Hr Hc He.
  destruct (writes2 out Pr Pc (fun _ _ => true) v (fun r c m => s <- e r c m ;; put2 m out r c s) m) as (m' & E & O & Q); auto.
  - intros r c m' H1 H2 Ho. rewrite He; [reflexivity|assumption|assumption|]. eapply holds2_off; eassumption.
  - exists m'. split; [exact E|]. split; [exact O|]. intros i j Hi Hj. rewrite Q by assumption. rewrite andb_true_r. reflexivity.
Qed.
Lemma conv2_ok R (h : kmat K) inp out D x m : (0 < kr h)%nat -> (0 < kc h)%nat -> wf2 m out -> disjoint2 out inp -> holds2 m inp x ->
  (R = support_min -> (forall n, (n < rows out)%nat -> (n * D + (kr h - 1) < rows inp)%nat) /\ (forall n, (n < cols out)%nat -> (n * D + (kc h - 1) < cols inp)%nat)) ->
  exists m', conv2 R h inp (rows inp) (cols inp) out (rows out) (cols out) D m = Some m' /\ off2 out m m' /\
   forall n1 n2, (n1 < rows out)%nat -> (n2 < cols out)%nat -> m' (addr2 out n1 n2) = Some (sample2 R h inp x D n1 n2).
Proof.
  intros Hr Hc W Dj H Hmin.
  assert (G : forall e, (forall r c m', (r < rows out)%nat -> (c < cols out)%nat -> holds2 m' inp x -> e r c m' = Some (sample2 R h inp x D r c)) ->
    exists m', loop2 (rows out) (cols out) out e m = Some m' /\ off2 out m m' /\
     forall n1 n2, (n1 < rows out)%nat -> (n2 < cols out)%nat -> m' (addr2 out n1 n2) = Some (sample2 R h inp x D n1 n2)).
  { intros e He. destruct (loop2_ok out inp x m (rows out) (cols out) e (sample2 R h inp x D)) as (m' & E & O & Q); auto.
    exists m'. split; [exact E|]. split; [exact O|]. intros i j Hi Hj. rewrite Q by assumption.
    destruct (Nat.ltb_spec i (rows out)), (Nat.ltb_spec j (cols out)); try lia. reflexivity. }
  destruct R; cbn [conv2].
  - apply G. intros r c m' H1 H2 Hm. unfold sample2. cbn [first_sample]. rewrite !Nat.add_0_r. apply sample2_guard. exact Hm.
  - apply G. intros r c m' H1 H2 Hm. apply sample2_guard. exact Hm.
  - apply G. intros r c m' H1 H2 Hm. destruct (Hmin eq_refl) as [A B]. apply sample2_min; auto.
Qed.

Lemma ceil_facts (a D : nat) : (0 < D)%nat -> let q := (a / D + if a mod D =? 0 then 0 else 1)%nat in
  (q * D = a + if a mod D =? 0 then 0 else D - a mod D)%nat /\ (q <= a)%nat /\ forall n, (n < q <-> n * D < a)%nat.
Proof.
  intros HD q. pose proof (Nat.div_mod a D ltac:(lia)) as DM. pose proof (Nat.mod_upper_bound a D ltac:(lia)) as MB.
  unfold q. clear q. generalize dependent (a mod D)%nat. generalize dependent (a / D)%nat. intros q r DM MB.
  pose proof (Nat.mul_le_mono_r 1 D q ltac:(lia)) as QD.
  split; [|split].
  - destruct (Nat.eqb_spec r 0); rewrite Nat.mul_add_distr_r; lia.
  - destruct (Nat.eqb_spec r 0); lia.
  - intros n. split; intros H.
    + destruct (Nat.eqb_spec r 0) as [e|e].
      { assert (H0 : (n + 1 <= q)%nat) by lia. pose proof (Nat.mul_le_mono_r _ _ D H0). lia. }
      { assert (H0 : (n <= q)%nat) by lia. pose proof (Nat.mul_le_mono_r _ _ D H0). lia. }
    + destruct (Nat.eqb_spec r 0) as [e|e].
      { destruct (Nat.le_gt_cases q n) as [H0|H0]; [|lia]. pose proof (Nat.mul_le_mono_r _ _ D H0). lia. }
      { destruct (Nat.le_gt_cases (q + 1) n) as [H0|H0]; [|lia]. pose proof (Nat.mul_le_mono_r _ _ D H0). lia. }
Qed.
(** What the example computes for one dimension. *)
Lemma dim_facts M N P D : (0 < M)%nat -> (0 < D)%nat -> (M / 2 <= N)%nat -> (forall n, n < P <-> n * D + 1 <= N)%nat ->
  let a := (M - 1 - M / 2)%nat in let n0 := (a / D + if a mod D =? 0 then 0 else 1)%nat in let ph := (if a mod D =? 0 then 0 else D - a mod D)%nat in
  let b := (N - M / 2)%nat in let n1 := (b / D + if b mod D =? 0 then 0 else 1)%nat in
  (M / 2 <= M - 1 /\ n1 <= P /\ (n0 < n1 -> ph <= N) /\
   (forall n, n < n1 - n0 -> n * D + (M - 1) < N - ph) /\ (forall n, (n0 + n) * D + M / 2 = ph + (n * D + (M - 1))) /\
   (forall n, n < P -> M / 2 <= n -> n + M / 2 < P -> n0 <= n < n1))%nat.
Proof.
  intros HM HD HN HP a n0 ph b n1.
  destruct (ceil_facts a D HD) as (A1 & A2 & A3). fold n0 in A1, A2, A3. fold ph in A1.
  destruct (ceil_facts b D HD) as (B1 & B2 & B3). fold n1 in B1, B2, B3.
  clearbody n0 ph n1.
  assert (Hh : (M / 2 <= M - 1 /\ M - 1 - M / 2 <= M / 2)%nat) by (pose proof (Nat.div_mod M 2 ltac:(lia)); pose proof (Nat.mod_upper_bound M 2 ltac:(lia)); lia).
  assert (shift : forall n, ((n0 + n) * D + M / 2 = ph + (n * D + (M - 1)))%nat) by (intros n; rewrite Nat.mul_add_distr_r, A1; unfold a; lia).
  set (M2 := (M / 2)%nat) in *. clearbody M2.
  split; [lia|]. split; [|split; [|split; [|split]]].
  - destruct (Nat.le_gt_cases n1 P) as [H|H]; [exact H|]. apply B3 in H. assert (P < P)%nat; [|lia]. apply HP. unfold b in H. lia.
  - intros H. apply B3 in H. specialize (shift 0%nat). rewrite Nat.add_0_r in shift. unfold b in H. lia.
  - intros n H. specialize (shift n). assert (H' : (n0 + n < n1)%nat) by lia. apply B3 in H'. unfold b in H'. lia.
  - exact shift.
  - intros n H1 H2 H3. split; [unfold a in A2; lia|]. apply B3. apply HP in H3. rewrite Nat.mul_add_distr_r in H3.
    pose proof (Nat.mul_le_mono_l 1 D M2 ltac:(lia)). unfold b. lia.
Qed.
Lemma lin_conv2_shift (h : kmat K) Nr Nc Nr' Nc' x pr pc p q : (Nr' = Nr - pr)%nat -> (Nc' = Nc - pc)%nat -> (kr h - 1 <= p < Nr')%nat -> (kc h - 1 <= q < Nc')%nat ->
  lin_conv2 (kr h) (kc h) Nr' Nc' (kv h) (fun i j => x (pr + i)%nat (pc + j)%nat) p q = lin_conv2 (kr h) (kc h) Nr Nc (kv h) x (pr + p) (pc + q).
Proof.
  intros -> -> Hp Hq. rewrite !lin_conv2_eq. apply sum_ext. intros k Hk. apply sum_ext. intros l Hl.
  destruct (Nat.leb_spec k p), (Nat.ltb_spec (p - k) (Nr - pr)), (Nat.leb_spec l q), (Nat.ltb_spec (q - l) (Nc - pc)); try lia.
  destruct (Nat.leb_spec k (pr + p)), (Nat.ltb_spec (pr + p - k) Nr), (Nat.leb_spec l (pc + q)), (Nat.ltb_spec (pc + q - l) Nc); try lia.
  cbn [andb]. f_equal. f_equal; lia.
Qed.
Lemma edge_false h Pr Pc r c : (r < Pr)%nat -> (c < Pc)%nat -> (Z.of_nat Pr < W64)%Z -> (Z.of_nat Pc < W64)%Z -> @is_edge K h Pr Pc r c = false ->
  (kr h / 2 <= r /\ r + kr h / 2 < Pr)%nat /\ (kc h / 2 <= c /\ c + kc h / 2 < Pc)%nat.
Proof.
  intros Hr Hc Wr Wc. unfold is_edge. set (a := (kr h / 2)%nat). set (b := (kc h / 2)%nat). clearbody a b.
  rewrite !orb_false_iff, !Nat.ltb_ge, !Z.leb_gt. intros (((A & B) & C) & D).
  unfold u64 in B, D. rewrite Z.mod_small in B by lia. rewrite Z.mod_small in D by lia. lia.
Qed.
Lemma example_ok (h : kmat K) inp out D x m : (0 < kr h)%nat -> (0 < kc h)%nat -> (0 < D)%nat -> wf2 m out -> disjoint2 out inp -> holds2 m inp x ->
  (kr h / 2 <= rows inp)%nat -> (kc h / 2 <= cols inp)%nat ->
  (forall n, (n < rows out <-> n * D + 1 <= rows inp)%nat) -> (forall n, (n < cols out <-> n * D + 1 <= cols inp)%nat) ->
  (Z.of_nat (rows out) < W64)%Z -> (Z.of_nat (cols out) < W64)%Z ->
  exists m', conv_same_example h inp (rows inp) (cols inp) out (rows out) (cols out) D m = Some m' /\ off2 out m m' /\
   forall n1 n2, (n1 < rows out)%nat -> (n2 < cols out)%nat -> m' (addr2 out n1 n2) = Some (sample2 support_same h inp x D n1 n2).
Proof.
  intros Hr Hc HD W Dj H Nr Nc Pr Pc Wr Wc. unfold conv_same_example. cbv zeta.
  pose proof (dim_facts (kr h) (rows inp) (rows out) D Hr HD Nr Pr) as Fr. cbv zeta in Fr.
  pose proof (dim_facts (kc h) (cols inp) (cols out) D Hc HD Nc Pc) as Fc. cbv zeta in Fc.
  rewrite (usub_ok (kr h) 1) by lia. cbn [bind]. rewrite (usub_ok (kc h) 1) by lia. cbn [bind].
  rewrite (usub_ok (kr h - 1)) by (destruct Fr; assumption). cbn [bind]. rewrite (usub_ok (kc h - 1)) by (destruct Fc; assumption). cbn [bind].
  rewrite (usub_ok (rows inp)) by assumption. cbn [bind]. rewrite (usub_ok (cols inp)) by assumption. cbn [bind].
  set (ar := (kr h - 1 - kr h / 2)%nat) in *. set (ac := (kc h - 1 - kc h / 2)%nat) in *.
  set (br := (rows inp - kr h / 2)%nat) in *. set (bc := (cols inp - kc h / 2)%nat) in *.
  set (n0r := (ar / D + (if ar mod D =? 0 then 0 else 1))%nat) in *. set (n0c := (ac / D + (if ac mod D =? 0 then 0 else 1))%nat) in *.
  set (n1r := (br / D + (if br mod D =? 0 then 0 else 1))%nat) in *. set (n1c := (bc / D + (if bc mod D =? 0 then 0 else 1))%nat) in *.
  set (phr := (if ar mod D =? 0 then 0 else D - ar mod D)%nat) in *. set (phc := (if ac mod D =? 0 then 0 else D - ac mod D)%nat) in *.
  clearbody n0r n0c n1r n1c phr phc. clear ar ac br bc.
  destruct Fr as (_ & R1 & R2 & R3 & R4 & R5). destruct Fc as (_ & C1 & C2 & C3 & C4 & C5).
  match goal with |- exists m', (m1 <- ?X ;; _) = _ /\ _ => assert (Y : exists m1, X = Some m1 /\ off2 out m m1 /\
    forall i j, (n0r <= i < n1r)%nat -> (n0c <= j < n1c)%nat -> m1 (addr2 out i j) = Some (sample2 support_same h inp x D i j)) end.
  { destruct (Nat.ltb_spec n0r n1r) as [Lr|Lr], (Nat.ltb_spec n0c n1c) as [Lc|Lc]; cbn [andb];
      try (exists m; split; [reflexivity|]; split; [split; [reflexivity|intros a Ha; exact Ha]|]; intros i j Hi Hj; lia).
    rewrite !usub_ok by auto. cbn [bind]. unfold conv_min2.
    set (out' := advance out n0r n0c (rows out - n0r) (cols out - n0c)).
    set (inp' := advance inp phr phc (rows inp - phr) (cols inp - phc)).
    destruct (loop2_ok out' inp' (fun i j => x (phr + i)%nat (phc + j)%nat) m (n1r - n0r) (n1c - n0c)
      (fun r c m => r1 <- usub (kr h) 1 ;; c1 <- usub (kc h) 1 ;; loop (fun rr s => loop (fun cc s =>
        a <- usub (r * D + r1) rr ;; b <- usub (c * D + c1) cc ;; w <- tap h rr cc ;; x <- get2 m inp' a b ;; Some (s + w * x)) 0 (kc h) s) 0 (kr h) 0)
      (fun r c => sample2 support_same h inp x D (n0r + r) (n0c + c))) as (m1 & E & O & Q).
    - destruct W as [Al In]. split; cbn [out' advance rows cols addr2].
      + intros i j Hi Hj. apply Al; lia.
      + intros i j i' j' Hi Hj Hi' Hj' e. apply In in e; lia.
    - intros i j i' j' Hi Hj Hi' Hj'. cbn [out' inp' advance rows cols addr2] in *. apply Dj; lia.
    - intros i j Hi Hj. cbn [inp' advance rows cols addr2] in *. apply H; lia.
    - cbn. lia.
    - cbn. lia.
    - intros r c m' Hr' Hc' Hm. rewrite (sample2_min h inp' (fun i j => x (phr + i)%nat (phc + j)%nat)); auto; cbn [inp' advance rows cols]; try (apply R3 in Hr'; lia); try (apply C3 in Hc'; lia).
      f_equal. unfold sample2. cbn [first_sample]. rewrite R4, C4. apply lin_conv2_shift; auto.
      + apply R3 in Hr'. lia.
      + apply C3 in Hc'. lia.
    - exists m1. split; [exact E|]. split; [split|].
      + intros a Ha. apply (proj1 O). intros i j Hi Hj. cbn [out' advance rows cols addr2] in *. apply Ha; lia.
      + exact (proj2 O).
      + intros i j Hi Hj. specialize (Q (i - n0r)%nat (j - n0c)%nat). cbn [out' advance rows cols addr2] in Q.
        replace (n0r + (i - n0r))%nat with i in Q by lia. replace (n0c + (j - n0c))%nat with j in Q by lia. rewrite Q by lia.
        destruct (Nat.ltb_spec (i - n0r) (n1r - n0r)), (Nat.ltb_spec (j - n0c) (n1c - n0c)); try lia. reflexivity. }
  destruct Y as (m1 & E1 & O1 & Q1). rewrite E1. cbn [bind]. unfold conv_same_edge.
  assert (W1 : wf2 m1 out) by (destruct W as [Al In]; split; [intros; apply (proj2 O1); auto | exact In]).
  assert (H1 : holds2 m1 inp x) by (eapply holds2_off; eassumption).
  destruct (writes2 out (rows out) (cols out) (is_edge h (rows out) (cols out)) (sample2 support_same h inp x D)
    (fun r c m => if is_edge h (rows out) (cols out) r c then s <- same_sum h inp (rows inp) (cols inp) D r c m ;; put2 m out r c s else Some m) m1) as (m2 & E2 & O2 & Q2); auto.
  - intros r c m' Hr' Hc' Ho. destruct (is_edge h (rows out) (cols out) r c); [|reflexivity].
    unfold same_sum. rewrite (sample2_guard h inp x) by (eapply holds2_off; eassumption). reflexivity.
  - exists m2. split; [exact E2|]. split; [split|].
    + intros a Ha. rewrite (proj1 O2) by exact Ha. apply (proj1 O1). exact Ha.
    + eapply alloc_trans; [exact (proj2 O1)|exact (proj2 O2)].
    + intros i j Hi Hj. rewrite Q2 by assumption. destruct (Nat.ltb_spec i (rows out)), (Nat.ltb_spec j (cols out)); try lia. cbn [andb].
      destruct (is_edge h (rows out) (cols out) i j) eqn:Ee; [reflexivity|].
      apply edge_false in Ee; try assumption. destruct Ee as [[A1 A2] [B1 B2]]. apply Q1; [apply R5 | apply C5]; assumption.
Qed.

Lemma make1 S R (coeffs h : list K) N d : full_kernel S coeffs h -> (0 < length coeffs)%nat -> (0 < d)%nat ->
  (length coeffs <= (match S with nonsym => N | _ => 2 * N end))%nat ->
  make_conv1 S R coeffs N d = Some {| coeff1 := h; input1 := N; output1 := conv_dim_output_size R (Z.of_nat (length h)) (Z.of_nat N) (Z.of_nat d); decimation1 := d |}.
Proof.
  intros F L Hd Hs. unfold make_conv1. rewrite (kernel1_ok S coeffs h) by assumption. cbn [bind]. rewrite assert_true by (apply Nat.leb_le; lia).
  rewrite assert_true; [reflexivity|]. destruct S; apply Nat.leb_le; exact Hs.
Qed.
Lemma full_len S (coeffs h : list K) : full_kernel S coeffs h -> (0 < length coeffs)%nat -> (0 < length h)%nat.
Proof. destruct S; cbn; [intros ->; auto | intros (-> & _) H; lia | intros (-> & _) H; lia]. Qed.
Lemma vector_ok S R (coeffs h : list K) N d : full_kernel S coeffs h -> (0 < length coeffs)%nat -> (0 < d)%nat ->
  (length coeffs <= (match S with nonsym => N | _ => 2 * N end))%nat -> (R = support_min -> (length h <= N)%nat) -> (Z.of_nat (N + length h) < W64)%Z ->
  exists c P, make_conv1 S R coeffs N d = Some c /\ output1 c = Z.of_nat P /\
   (forall n, (n < P)%nat <-> (n * d + first_sample R (length h) <= last_sample R (length h) N)%nat) /\
   forall inp out x m, len inp = N -> len out = P -> wf1 m out -> disjoint1 out inp -> holds1 m inp x ->
    exists m', convolve1 R c inp out m = Some m' /\
     (forall n, (n < P)%nat -> m' (addr1 out n) = Some (lin_conv (length h) N (fun k => nth k h 0) x (n * d + first_sample R (length h)))) /\
     (forall a, (forall n, (n < P)%nat -> a <> addr1 out n) -> m' a = m a).
Proof.
  intros F L Hd Hs Hm HW. pose proof (full_len _ _ _ F L) as Lh.
  assert (HN : (0 < N)%nat) by (destruct S; lia).
  destruct (out_size R (length h) N d Lh HN Hd Hm HW) as (P & EP & PP & HP).
  eexists; exists P. split; [apply (make1 S R coeffs h N d); assumption|]. split; [exact EP|]. split; [exact HP|].
  intros inp out x m E1 E2 W Dj H. unfold convolve1. cbn [input1 output1 coeff1 decimation1].
  rewrite assert_true by (apply Nat.eqb_eq; exact E1). rewrite assert_true by (apply Z.eqb_eq; rewrite E2; symmetry; exact EP).
  subst N. destruct (conv1_ok R h inp out d x m) as (m' & E & O & Q); auto; try lia.
  - intros R' n Hn. split; [|auto]. apply HP. rewrite E2 in Hn. exact Hn.
  - exists m'. split; [exact E|]. split; [intros n Hn; apply Q; lia|]. intros a Ha. apply (proj1 O). intros i Hi. apply Ha. lia.
Qed.
Lemma full2_len S (c h : kmat K) : full_kernel2 S c h -> (0 < kr c)%nat -> (0 < kc c)%nat -> (0 < kr h)%nat /\ (0 < kc h)%nat.
Proof. destruct S; cbn; intros (-> & -> & _) A B; lia. Qed.
Lemma matrix_ok S R (coeffs : kmat K) Nr Nc d : (0 < kr coeffs)%nat -> (0 < kc coeffs)%nat -> (0 < d)%nat -> (0 < Nr)%nat -> (0 < Nc)%nat ->
  (kr coeffs * kc coeffs <= (match S with nonsym => Nr * Nc | _ => 2 * (Nr * Nc) end))%nat ->
  exists h, full_kernel2 S coeffs h /\ ((R = support_min -> (kr h <= Nr)%nat /\ (kc h <= Nc)%nat) -> (Z.of_nat (Nr + kr h) < W64)%Z -> (Z.of_nat (Nc + kc h) < W64)%Z ->
  exists c Pr Pc, make_conv2 S R coeffs Nr Nc d = Some c /\ output2 c = (Z.of_nat Pr, Z.of_nat Pc) /\
   (forall n, (n < Pr)%nat <-> (n * d + first_sample R (kr h) <= last_sample R (kr h) Nr)%nat) /\
   (forall n, (n < Pc)%nat <-> (n * d + first_sample R (kc h) <= last_sample R (kc h) Nc)%nat) /\
   forall inp out x m, rows inp = Nr -> cols inp = Nc -> rows out = Pr -> cols out = Pc -> wf2 m out -> disjoint2 out inp -> holds2 m inp x ->
    exists m', convolve2 R c inp out m = Some m' /\
     (forall p q, (p < Pr)%nat -> (q < Pc)%nat ->
        m' (addr2 out p q) = Some (lin_conv2 (kr h) (kc h) Nr Nc (kv h) x (p * d + first_sample R (kr h)) (q * d + first_sample R (kc h)))) /\
     (forall a, (forall p q, (p < Pr)%nat -> (q < Pc)%nat -> a <> addr2 out p q) -> m' a = m a)).
Proof.
  intros L1 L2 Hd HNr HNc Hs. destruct (kernel2_ok S coeffs L1 L2) as (h & Eh & F). exists h. split; [exact F|]. intros Hm W1 W2.
  destruct (full2_len _ _ _ F L1 L2) as [Lr Lc].
  destruct (out_size R (kr h) Nr d) as (Pr & EPr & PPr & HPr); auto; [intros e; apply Hm; exact e|].
  destruct (out_size R (kc h) Nc d) as (Pc & EPc & PPc & HPc); auto; [intros e; apply Hm; exact e|].
  eexists; exists Pr, Pc. split; [|split; [|split; [exact HPr|split; [exact HPc|]]]].
  - unfold make_conv2. rewrite Eh. cbn [bind]. rewrite assert_true by (apply Nat.leb_le; lia).
    rewrite assert_true by (destruct S; apply Nat.leb_le; exact Hs). rewrite EPr, EPc. reflexivity.
  - reflexivity.
  - intros inp out x m E1 E2 E3 E4 W Dj H. unfold convolve2. cbn [input2 output2 coeff2 decimation2 fst snd].
    rewrite !assert_true by ((apply Nat.eqb_eq || apply Z.eqb_eq); congruence).
    destruct (conv2_ok R h inp out d x m) as (m' & E & O & Q); auto.
    + intros ->. destruct (Hm eq_refl). split; intros n Hn.
      * rewrite E3 in Hn. apply HPr in Hn. cbn [first_sample last_sample] in Hn. lia.
      * rewrite E4 in Hn. apply HPc in Hn. cbn [first_sample last_sample] in Hn. lia.
    + exists m'. split; [exact E|]. split.
      * intros p q Hp Hq. rewrite Q by lia. unfold sample2. rewrite E1, E2. reflexivity.
      * intros a Ha. apply (proj1 O). intros i j Hi Hj. apply Ha; lia.
Qed.
Lemma out_dec (out : block2) a : (exists i j, (i < rows out)%nat /\ (j < cols out)%nat /\ a = addr2 out i j) \/ (forall i j, (i < rows out)%nat -> (j < cols out)%nat -> a <> addr2 out i j).
Proof.
  destruct (existsb (fun i => existsb (fun j => Z.eqb a (addr2 out i j)) (seq 0 (cols out))) (seq 0 (rows out))) eqn:E.
  - left. apply existsb_exists in E. destruct E as (i & Hi & E). apply existsb_exists in E. destruct E as (j & Hj & E).
    apply in_seq in Hi. apply in_seq in Hj. apply Z.eqb_eq in E. exists i, j. repeat split; lia || auto.
  - right. intros i j Hi Hj e. assert (T : existsb (fun i => existsb (fun j => Z.eqb a (addr2 out i j)) (seq 0 (cols out))) (seq 0 (rows out)) = true); [|congruence].
    apply existsb_exists. exists i. split; [apply in_seq; lia|]. apply existsb_exists. exists j. split; [apply in_seq; lia|]. apply Z.eqb_eq. exact e.
Qed.
Lemma example_same (h : kmat K) inp out D x m : (0 < kr h)%nat -> (0 < kc h)%nat -> (0 < D)%nat -> wf2 m out -> disjoint2 out inp -> holds2 m inp x ->
  (kr h / 2 <= rows inp)%nat -> (kc h / 2 <= cols inp)%nat -> (0 < rows inp)%nat -> (0 < cols inp)%nat ->
  (Z.of_nat (rows inp + kr h) < W64)%Z -> (Z.of_nat (cols inp + kc h) < W64)%Z ->
  Z.of_nat (rows out) = conv_dim_output_size support_same (Z.of_nat (kr h)) (Z.of_nat (rows inp)) (Z.of_nat D) ->
  Z.of_nat (cols out) = conv_dim_output_size support_same (Z.of_nat (kc h)) (Z.of_nat (cols inp)) (Z.of_nat D) ->
  exists m1 m2, conv_same_example h inp (rows inp) (cols inp) out (rows out) (cols out) D m = Some m1 /\
    conv_same2 h inp (rows inp) (cols inp) out (rows out) (cols out) D m = Some m2 /\ forall a, m1 a = m2 a.
Proof.
  intros Hr Hc HD W Dj H Nr Nc NP NP' W1 W2 Er Ec.
  destruct (out_size support_same (kr h) (rows inp) D) as (Pr & EPr & PPr & HPr); auto; try discriminate. rewrite EPr in Er. apply Nat2Z.inj in Er. subst Pr.
  destruct (out_size support_same (kc h) (cols inp) D) as (Pc & EPc & PPc & HPc); auto; try discriminate. rewrite EPc in Ec. apply Nat2Z.inj in Ec. subst Pc.
  cbn [first_sample last_sample] in HPr, HPc.
  assert (le : forall P N, (forall n, n < P <-> n * D + 1 <= N)%nat -> (P <= N)%nat).
  { intros P N HPN. destruct P as [|P]; [lia|]. specialize (HPN P). pose proof (Nat.mul_le_mono_l 1 D P ltac:(lia)). lia. }
  assert (HPr' : forall n, (n < rows out <-> n * D + 1 <= rows inp)%nat) by (intros n; rewrite HPr; lia).
  assert (HPc' : forall n, (n < cols out <-> n * D + 1 <= cols inp)%nat) by (intros n; rewrite HPc; lia).
  pose proof (le _ _ HPr'). pose proof (le _ _ HPc').
  destruct (example_ok h inp out D x m) as (m1 & E1 & O1 & Q1); auto; try lia.
  destruct (conv2_ok support_same h inp out D x m) as (m2 & E2 & O2 & Q2); auto; try discriminate.
  exists m1, m2. split; [exact E1|]. split; [exact E2|]. intros a. destruct (out_dec out a) as [(i & j & Hi & Hj & ->)|Ho].
  - rewrite Q1, Q2 by assumption. reflexivity.
  - rewrite (proj1 O1), (proj1 O2) by exact Ho. reflexivity.
Qed.
End C.
