(** Lemmas for [CVsipSig]. *)
From Coq Require Import ZArith List Lia Bool Arith.
From Verif Require Import Base Matvec Blas CVsip CVsipProofs Fir FirProofs Freqswap FreqswapProofs Conv ConvProofs Corr CorrProofs CVsipSig.
Import ListNotations.
Local Open Scope nat_scope.

Section P.
Context {K : CRing} (conj : K -> K) (div : K -> K -> K) (L : siglib K).
Local Open Scope cr_scope.
Add Ring Kring : (r_th K).

Lemma loop_one (f : nat -> mem K -> option (mem K)) m : loop f 0 1 m = f 0%nat m.
Proof. cbn [loop]. destruct (f 0%nat m); reflexivity. Qed.

Lemma nth_seq {A} (l : list A) d : map (fun i => nth i l d) (seq 0 (length l)) = l.
Proof. apply nth_ext with (d := d) (d' := d); [rewrite map_length, seq_length; reflexivity|]. intros i Hi. rewrite map_length, seq_length in Hi.
  rewrite (nth_indep _ d (nth 0 l d)) by (rewrite map_length, seq_length; exact Hi). rewrite (map_nth (fun i => nth i l d) (seq 0 (length l)) 0%nat i), seq_nth by exact Hi. reflexivity. Qed.

(** ** Recomputing outputs *)
Lemma recompute_ok M tap inp out D off n (h : list K) x m : length h = M -> (forall k, (k < M)%nat -> tap k = Some (nth k h 0)) ->
  holds1 m inp x ->
  recompute M tap inp out D off n m = put1 m out n (lin_conv (length h) (len inp) (fun k => nth k h 0) x (n * D + off)).
Proof.
  intros HM Ht Hi. unfold recompute. 
  replace (loop _ 0 M 0) with (Some (lin_conv (length h) (len inp) (fun k => nth k h 0) x (n * D + off))); [reflexivity|].
  rewrite <- (sample1_guard h inp (len inp) x m (n * D + off) eq_refl Hi). subst M. apply loop_ext. intros k s Hk.
  destruct (_ && _)%bool; [|reflexivity]. rewrite Ht by lia. rewrite bget_nth by lia. reflexivity.
Qed.

Lemma half_tap_ok (c h : list K) k : full_kernel sym_even_len_even c h -> (0 < length c)%nat -> (k < 2 * length c)%nat -> half_tap c k = Some (nth k h 0).
Proof.
  intros F L0 Hk. rewrite (full_unique sym_even_len_even c h (unfold_kernel sym_even_len_even c) L0 F (full_exists _ _ L0)).
  unfold half_tap, unfold_kernel. destruct (Nat.ltb_spec k (length c)).
  - rewrite bget_nth by lia. rewrite app_nth1 by lia. reflexivity.
  - rewrite usub_ok by lia. cbn [bind]. rewrite bget_nth by lia. rewrite app_nth2 by lia. rewrite rev_nth by lia. do 2 f_equal. lia.
Qed.

Section Fix.
Variables (inp out : block1) (x : nat -> K) (h : list K) (D off : nat) (susp : nat -> Prop) (m0 : mem K).
Let val n := lin_conv (length h) (len inp) (fun k => nth k h 0) x (n * D + off).
Hypothesis W : wf1 m0 out.
Hypothesis Dj : disjoint1 out inp.
Hypothesis Hx : holds1 m0 inp x.
Variables (M : nat) (tap : nat -> option K).
Hypothesis HM : length h = M.
Hypothesis Ht : forall k, (k < M)%nat -> tap k = Some (nth k h 0).

Definition good_upto (i : nat) (m : mem K) : Prop := off1 out m0 m /\ forall n, (n < len out)%nat -> (len out <= n + i)%nat \/ ~ susp n -> m (addr1 out n) = Some (val n).
Lemma fix_step i m : (i < len out)%nat -> good_upto i m ->
  exists m', (n <- usub (len out) (1 + i) ;; recompute M tap inp out D off n m) = Some m' /\ good_upto (i + 1) m'.
Proof.
  intros Hi [O C]. rewrite usub_ok by lia. cbn [bind].
  rewrite (recompute_ok M tap inp out D off _ h x m HM Ht) by (eapply holds1_off; eassumption).
  set (p := (len out - (1 + i))%nat). rewrite put1_ok by (try lia; apply (proj2 O); apply (proj1 W); lia).
  eexists. split; [reflexivity|]. split; [split|].
  - intros a Ha. rewrite mupd_other by (apply Ha; lia). apply (proj1 O); exact Ha.
  - eapply alloc_trans; [exact (proj2 O)|]. apply mupd_alloc.
  - intros n Hn Q. destruct (Nat.eq_dec n p) as [-> | Ne]; [rewrite mupd_same; reflexivity|].
    rewrite mupd_other by (intros e; apply Ne, (proj2 W); auto; lia). apply C; [exact Hn|]. destruct Q; [left; lia|right; assumption].
Qed.
Lemma fix_loop cnt : (cnt <= len out)%nat -> (forall n, (n < len out)%nat -> susp n -> (len out <= n + cnt)%nat) ->
  (forall n, (n < len out)%nat -> ~ susp n -> m0 (addr1 out n) = Some (val n)) ->
  exists m', loop (fun i m => n <- usub (len out) (1 + i) ;; recompute M tap inp out D off n m) 0 cnt m0 = Some m' /\ off1 out m0 m' /\ holds1 m' out val.
Proof.
  intros Hc Hs H0.
  destruct (loop_inv (fun i m => n <- usub (len out) (1 + i) ;; recompute M tap inp out D off n m) good_upto cnt 0 m0) as (m' & E & [O C]).
  - split; [split; [reflexivity|intros a Ha; exact Ha]|]. intros n Hn [Q|Q]; [lia|apply H0; assumption].
  - intros i m Hi G. apply fix_step; [lia|exact G].
  - exists m'. split; [exact E|]. split; [exact O|]. intros n Hn. apply C; [exact Hn|].
    destruct (le_lt_dec (len out) (n + (0 + cnt))); [left; assumption|]. right. intros Q. specialize (Hs n Hn Q). lia.
Qed.
End Fix.

Lemma fixup_ok S R (c h : list K) D inp out (x : nat -> K) (m : mem K) P : full_kernel S c h -> (0 < length c)%nat -> (0 < D)%nat -> (length h <= len inp)%nat ->
  (R = support_full -> S <> sym_even_len_odd -> D <= 4)%nat -> len out = P -> (0 < P)%nat ->
  (forall n, (n < P)%nat <-> (n * D + first_sample R (length h) <= last_sample R (length h) (len inp))%nat) ->
  wf1 m out -> disjoint1 out inp -> holds1 m inp x ->
  (forall n, (n < P)%nat -> ~ suspect S R (length c) P n -> m (addr1 out n) = Some (lin_conv (length h) (len inp) (fun k => nth k h 0) x (n * D + first_sample R (length h)))) ->
  exists m', fixup S R c D inp out m = Some m' /\ off1 out m m' /\
    holds1 m' out (fun n => lin_conv (length h) (len inp) (fun k => nth k h 0) x (n * D + first_sample R (length h))).
Proof.
  intros F L0 HD HN H4 EP PP HP W Dj Hx H0. subst P.
  assert (Id : (forall n, ~ suspect S R (length c) (len out) n) -> exists m', Some m = Some m' /\ off1 out m m' /\
    holds1 m' out (fun n => lin_conv (length h) (len inp) (fun k => nth k h 0) x (n * D + first_sample R (length h)))).
  { intros Q. exists m. split; [reflexivity|]. split; [split; [reflexivity|intros a Ha; exact Ha]|]. intros n Hn. apply H0; [exact Hn|apply Q]. }
  assert (Full : forall cnt, R = support_full -> S <> sym_even_len_odd -> (4 * cnt <= length h + length h + 2)%nat -> (cnt <= len out)%nat).
  { intros cnt ER ES Hc. specialize (H4 ER ES). destruct (le_lt_dec cnt (len out)) as [|Q]; [assumption|exfalso].
    subst R. assert (len out < len out)%nat; [|lia]. apply HP. cbn [first_sample last_sample] in *.
    assert (len out * D <= (cnt - 1) * 4)%nat by (apply Nat.mul_le_mono; lia). lia. }
  destruct S, R; cbn [fixup]; try (apply Id; intros n Q; exact Q).
  - (* nonsym, full *)
    assert (h = c) by exact F. subst h.
    destruct (fix_loop inp out x c D 0 (suspect nonsym support_full (length c) (len out)) m W Dj Hx (length c) (bget c) eq_refl (fun k Hk => bget_nth c k Hk) ((length c + 1) / 2)) as (m' & E & O & H).
    + apply Full; [reflexivity|discriminate|]. pose proof (Nat.mul_div_le (length c + 1) 2 ltac:(lia)). lia.
    + intros n Hn Q. exact Q.
    + intros n Hn Q. apply H0; assumption.
    + exists m'. split; [exact E|]. split; [exact O|]. exact H.
  - (* nonsym, same *)
    assert (h = c) by exact F. subst h.
    destruct (fix_loop inp out x c D (length c / 2) (suspect nonsym support_same (length c) (len out)) m W Dj Hx (length c) (bget c) eq_refl (fun k Hk => bget_nth c k Hk) 1) as (m' & E & O & H).
    + lia.
    + intros n Hn Q. cbn [suspect] in Q. lia.
    + intros n Hn Q. apply H0; assumption.
    + exists m'. split; [|split; [exact O|exact H]]. rewrite loop_one in E. exact E.
  - (* even, full *)
    pose proof (proj1 F) as Lh.
    destruct (fix_loop inp out x h D 0 (suspect sym_even_len_even support_full (length c) (len out)) m W Dj Hx (2 * length c) (half_tap c) Lh (fun k Hk => half_tap_ok c h k F L0 Hk) (length c)) as (m' & E & O & H).
    + apply Full; [reflexivity|discriminate|lia].
    + intros n Hn Q. exact Q.
    + intros n Hn Q. apply H0; assumption.
    + exists m'. split; [exact E|]. split; [exact O|]. exact H.
  - (* even, same *)
    pose proof (proj1 F) as Lh. cbn [first_sample] in *. replace (length h / 2)%nat with (length c) in * by (rewrite Lh, Nat.mul_comm, Nat.div_mul by lia; reflexivity).
    destruct (fix_loop inp out x h D (length c) (suspect sym_even_len_even support_same (length c) (len out)) m W Dj Hx (2 * length c) (half_tap c) Lh (fun k Hk => half_tap_ok c h k F L0 Hk) 1) as (m' & E & O & H).
    + lia.
    + intros n Hn Q. cbn [suspect] in Q. lia.
    + intros n Hn Q. apply H0; assumption.
    + exists m'. split; [|split; [exact O|exact H]]. rewrite loop_one in E. exact E.
Qed.

Section Doc.
Variable fir_is : vfir L -> list K -> nat -> nat -> bool -> list K -> Prop.
Hypothesis Dc : sig_documented conj div L false fir_is.

Lemma conv_cv_ok S R coeffs k h N d times ah m0 : upward1 coeffs -> values k (blk1 coeffs) m0 -> full_kernel S k h ->
  (0 < d)%nat -> (length h <= N)%nat -> (Z.of_nat (N + length h) < W64)%Z -> (R = support_full -> S <> sym_even_len_odd -> d <= 4)%nat ->
  exists c P, make_cconv L S R coeffs N d times ah m0 = Some c /\ cc_out c = Z.of_nat P /\
   (forall n, (n < P)%nat <-> (n * d + first_sample R (length h) <= last_sample R (length h) N)%nat) /\
   forall inp out x m, upward1 inp -> upward1 out -> n1 inp = N -> n1 out = P -> wf1 m (blk1 out) -> disjoint1 (blk1 out) (blk1 inp) -> holds1 m (blk1 inp) x ->
    exists m', convolve_cv L S R c inp out m = Some m' /\ only1 (blk1 out) m m' /\
     holds1 m' (blk1 out) (fun n => lin_conv (length h) N (fun k => nth k h 0) x (n * d + first_sample R (length h))).
Proof.
  intros Uc [Lk Hk] F Hd HN HW H4. cbn [len blk1] in Lk. assert (L0 : (0 < length k)%nat) by (destruct Uc; lia).
  pose proof (full_len _ _ _ F L0) as Lh.
  destruct (out_size R (length h) N d Lh ltac:(lia) Hd ltac:(intros; assumption) HW) as (P & EP & PP & HP).
  assert (EM : match S with sym_even_len_odd => u64 (2 * Z.of_nat (n1 coeffs) - 1) | sym_even_len_even => u64 (2 * Z.of_nat (n1 coeffs)) | nonsym => Z.of_nat (n1 coeffs) end = Z.of_nat (length h)).
  { rewrite <- Lk. destruct S; cbn [full_kernel] in F; [rewrite F; reflexivity| |]; destruct F as (F & _); rewrite F in *; rewrite u64_id by lia; lia. }
  eexists; exists P. split; [|split; [|split; [exact HP|]]].
  - unfold make_cconv. cbv zeta.
    rewrite (doc_copy _ _ _ _ _ Dc (const_view1 false (p1 coeffs) 0 (st1 coeffs) (n1 coeffs)) m0 k (const_view1_usable false coeffs Uc)); [|split; [exact Lk|exact Hk]].
    cbn [bind]. rewrite assert_true by (apply Nat.leb_le; lia). rewrite assert_true; [rewrite EM; reflexivity|].
    rewrite <- Lk. destruct S; cbn [full_kernel] in F; [rewrite F in HN; apply Nat.leb_le; exact HN| |]; destruct F as (F & _); rewrite F in HN; apply Nat.leb_le; lia.
  - cbn [cc_out]. exact EP.
  - intros inp out x m Ui Uo Ei Eo W Dj Hx. unfold convolve_cv. cbn [cc_in cc_out cc_dec cc_n cc_hint cc_coeffs].
    rewrite assert_true by (apply Nat.eqb_eq; exact Ei). rewrite assert_true by (apply Z.eqb_eq; rewrite Eo; symmetry; exact EP).
    destruct (doc_conv _ _ _ _ _ Dc k S N d R times (hint ah) _ _ m x h (const_view1_usable false inp Ui) (view1_usable out Uo) F L0 HN Hd) as (m1 & E1 & O1 & W1 & V1).
    + exact Ei.
    + cbn [cv_len view1]. rewrite Eo. exact HP.
    + exact W.
    + exact Dj.
    + exact Hx.
    + rewrite E1. cbn [bind]. subst N.
      destruct (fixup_ok S R k h d (blk1 inp) (blk1 out) x m1 P) as (m2 & E2 & O2 & H2); try assumption.
      * intros i Hi. rewrite O1; [apply Hx; exact Hi|]. intros j Hj e. exact (Dj j i Hj Hi e).
      * intros n Hn Q. apply V1; cbn [cv_len view1]; rewrite Eo; assumption.
      * exists m2. split; [exact E2|]. split; [|exact H2]. intros a Ha. rewrite (proj1 O2) by (intros i Hi e; exact (Ha i Hi (eq_sym e))). apply O1. exact Ha.
Qed.

Lemma corr_cv_ok R times ah b sr si ref inp out w x m : upward1 ref -> upward1 inp -> upward1 out -> (sr = true -> st1 ref = 1%Z) -> (si = true -> st1 inp = 1%Z) ->
  b = biased \/ R <> support_same \/ (n1 ref mod 2 = 1)%nat -> (n1 ref <= n1 inp)%nat -> (Z.of_nat (n1 inp + n1 ref) < W64)%Z ->
  n1 out = places R (n1 ref) (n1 inp) -> wf1 m (blk1 out) -> disjoint1 (blk1 out) (blk1 ref) -> disjoint1 (blk1 out) (blk1 inp) -> holds1 m (blk1 ref) w -> holds1 m (blk1 inp) x ->
  exists m', correlate_cv L R (n1 ref) (n1 inp) times ah b sr si ref inp out m = Some m' /\ only1 (blk1 out) m m' /\
    holds1 m' (blk1 out) (fun n => scaled div b (corr_at conj (n1 ref) (n1 inp) (lead R (n1 ref)) w x n) (overlap (n1 ref) (n1 inp) (lead R (n1 ref)) n)).
Proof.
  intros Ur Ui Uo Sr Si Hb HN HW HP W Dr Di Hw Hx. unfold correlate_cv. rewrite !assert_true by (apply Nat.eqb_refl).
  pose proof (proj1 Ur) as Ur0. rewrite assert_true by (apply Z.eqb_eq; rewrite HP; symmetry; apply size_ok; [exact Ur0|lia|intros; exact HN|exact HW]).
  rewrite <- (const_view1_vec sr ref Sr) in Dr, Hw. rewrite <- (const_view1_vec si inp Si) in Di, Hx.
  refine (doc_corr _ _ _ _ _ Dc (n1 ref) (n1 inp) R times (hint ah) b _ _ (view1 (p1 out) 0 (st1 out) (n1 out)) m w x (const_view1_usable sr ref Ur) (const_view1_usable si inp Ui) (view1_usable out Uo) HN _ _ HP Hb W Dr Di Hw Hx);
    apply const_view1_len.
Qed.
(** ** Filters *)
Lemma ceil_mono d a b : (a <= b)%nat -> (0 < d)%nat -> (ceil_div a d <= ceil_div b d)%nat.
Proof. intros H D. unfold ceil_div. apply Nat.div_le_mono; lia. Qed.
Lemma ceil_le d a b : (0 < d)%nat -> (ceil_div (a + b) d - ceil_div a d <= ceil_div b d)%nat.
Proof.
  intros D. unfold ceil_div.
  pose proof (Nat.div_mod (a + d - 1) d ltac:(lia)) as E1. pose proof (Nat.mod_upper_bound (a + d - 1) d ltac:(lia)).
  pose proof (Nat.div_mod (b + d - 1) d ltac:(lia)) as E2. pose proof (Nat.mod_upper_bound (b + d - 1) d ltac:(lia)).
  set (u := ((a + d - 1) / d)%nat) in *. set (v := ((b + d - 1) / d)%nat) in *.
  assert ((a + b + d - 1) / d < u + v + 1)%nat; [|lia]. apply Nat.div_lt_upper_bound; nia.
Qed.
Lemma points_app d a b c : (0 < d)%nat -> (a <= b <= c)%nat -> points d a b ++ points d b c = points d a c.
Proof.
  intros D [H1 H2]. unfold points. rewrite <- map_app. f_equal. pose proof (ceil_mono d a b H1 D). pose proof (ceil_mono d b c H2 D).
  replace (ceil_div c d - ceil_div a d)%nat with ((ceil_div b d - ceil_div a d) + (ceil_div c d - ceil_div b d))%nat by lia.
  rewrite seq_app. do 2 f_equal. lia.
Qed.
Lemma points_lt d a b p : (0 < d)%nat -> In p (points d a b) -> (p < b)%nat.
Proof.
  intros D Q. apply in_map_iff in Q. destruct Q as (q & <- & Q). apply in_seq in Q. unfold ceil_div in Q.
  pose proof (Nat.mul_div_le (b + d - 1) d ltac:(lia)). assert (q + 1 <= (b + d - 1) / d)%nat by lia. nia.
Qed.
Lemma points_len d a b : length (points d a b) = (ceil_div b d - ceil_div a d)%nat.
Proof. unfold points. rewrite map_length, seq_length. reflexivity. Qed.

Lemma fir_view_up v : (0 < st1 v)%Z -> fir_view (p1 v) (st1 v) (n1 v) = view1 (p1 v) 0 (st1 v) (n1 v).
Proof. intros H. unfold fir_view. destruct (Z.ltb_spec 0 (st1 v)); [reflexivity|lia]. Qed.

Definition fir_ok (f : cfir L) (h : list K) i d save x : Prop :=
  input_size (cf_base L f) = i /\ output_size (cf_base L f) = ceil_div i d /\ (0 < d)%nat /\ fir_is (cf_obj L f) h i d save x.
Lemma make_cfir_ok S (kernel h : list K) i d save times ah : full_kernel S kernel h -> (0 < length kernel)%nat -> (1 < length kernel \/ S <> nonsym)%nat ->
  (0 < i)%nat -> (0 < d < length h)%nat -> (length h <= i + 1)%nat -> exists f, make_cfir L S kernel i d save times ah = Some f /\ fir_ok f h i d save [].
Proof.
  intros FK Hk0 Hk Hi Hd Hl. unfold make_cfir, make_backend.
  assert (Eo : order S (length kernel) = Some (length h)).
  { destruct S; cbn in FK |- *; [subst h; reflexivity| |]; destruct FK as (L1 & _); rewrite L1; [|f_equal; lia]. rewrite usub_ok by lia. f_equal. lia. }
  rewrite Eo. cbn [bind]. rewrite usub_ok by lia. cbn [bind]. rewrite assert_true by (apply Nat.ltb_lt; lia). rewrite assert_true by (apply Nat.ltb_lt; lia).
  rewrite assert_true by (apply Nat.ltb_lt; lia). rewrite assert_true by (apply Nat.leb_le; lia). cbn [bind].
  destruct (doc_fir_create _ _ _ _ _ Dc kernel S i d save times (hint ah) h FK Hk0 Hi ltac:(lia) ltac:(lia) Hl) as (o & E & Q).
  rewrite E. cbn [bind]. rewrite assert_true by (apply Nat.ltb_lt; destruct S; [destruct Hk; [lia|congruence]|lia|lia]).
  eexists. split; [reflexivity|]. split; [|split; [|split]]; try reflexivity; try lia. exact Q.
Qed.
Lemma call_ok f h i d save x c y : fir_ok f h i d save x -> proper_call i d c y ->
  let x0 := if save then x else [] in
  exists f' r, filter_cv L f (c_in c) (c_out c) (c_mem c) = Some (f', fst r, snd r) /\ fir_ok f' h i d save (x0 ++ y) /\ only_delivered c r /\
    delivered c r = map (fun p => Some (conv_at h (x0 ++ y) p)) (points d (length x0) (length (x0 ++ y))).
Proof.
  intros (F1 & F2 & Hd & F) (Ui & Uo & Si & So & Ei & Eo & W & Dj & V) x0. unfold filter_cv.
  rewrite assert_true by (apply Nat.eqb_eq; congruence). rewrite assert_true by (apply Nat.eqb_eq; congruence).
  unfold apply_cv. rewrite !fir_view_up by assumption.
  destruct (doc_fir _ _ _ _ _ Dc (cf_obj L f) h i d save x _ _ (c_mem c) y F (view1_usable (c_in c) Ui) (view1_usable (c_out c) Uo)) as (o & m' & E & Q & O & V1 & V2).
  - exact V.
  - destruct V as [V _]. rewrite V. exact Ei.
  - exact Eo.
  - exact W.
  - exact Dj.
  - fold x0 in E, Q, V1, V2. rewrite E. cbn [bind]. eexists; exists (m', length (points d (length x0) (length (x0 ++ y)))). split; [reflexivity|].
    split; [|split].
    + split; [exact F1|]. split; [exact F2|]. split; [exact Hd|]. exact Q.
    + split; cbn [fst snd].
      * rewrite points_len, app_length, Eo. destruct V as [V _]. rewrite <- Ei. rewrite V. apply ceil_le. exact Hd.
      * intros a Ha. destruct (in_dec Z.eq_dec a (map (addr1 (blk1 (c_out c))) (seq 0 (n1 (c_out c))))) as [I|I].
        { apply in_map_iff in I. destruct I as (q & <- & I). apply in_seq in I. apply V2. split; [|cbn [cv_len view1]; lia].
          destruct (le_lt_dec (length (points d (length x0) (length (x0 ++ y)))) q) as [|N]; [assumption|]. exfalso. exact (Ha q N eq_refl). }
        apply O. intros q Hq e. apply I. rewrite <- e. apply in_map_iff. exists q. split; [reflexivity|]. apply in_seq. cbn [len vec cv_len view1] in Hq. lia.
    + unfold delivered. cbn [fst snd]. set (ps := points d (length x0) (length (x0 ++ y))) in *.
      transitivity (map (fun q => Some (conv_at h (x0 ++ y) (nth q ps 0%nat))) (seq 0 (length ps))).
      * apply map_ext_in. intros q Hq. apply in_seq in Hq. apply V1. lia.
      * rewrite <- (map_map (fun q => nth q ps 0%nat) (fun p => Some (conv_at h (x0 ++ y) p))). f_equal. apply nth_seq.
Qed.
Lemma run_save f h i d x calls ys : fir_ok f h i d true x -> Forall2 (proper_call i d) calls ys ->
  exists f' rs, run_cv L f calls = Some (f', rs) /\ fir_ok f' h i d true (x ++ List.concat ys) /\ Forall2 only_delivered calls rs /\
    List.concat (map (fun p => delivered (fst p) (snd p)) (combine calls rs)) = map (fun p => Some (conv_at h (x ++ List.concat ys) p)) (points d (length x) (length (x ++ List.concat ys))).
Proof.
  intros F C. revert f x F. induction C as [|c y calls ys P C IH]; intros f x F.
  - exists f, []. cbn [run_cv List.concat map combine]. rewrite app_nil_r. split; [reflexivity|]. split; [exact F|]. split; [constructor|].
    unfold points. rewrite Nat.sub_diag. reflexivity.
  - destruct (call_ok f h i d true x c y F P) as (f1 & r & E & F1 & O & V). destruct (IH f1 (x ++ y) F1) as (f2 & rs & E2 & F2 & O2 & V2).
    exists f2, (r :: rs). cbn [run_cv]. rewrite E. cbn [bind]. rewrite E2. cbn [bind fst snd List.concat]. rewrite <- app_assoc in F2, V2. rewrite <- surjective_pairing.
    split; [reflexivity|]. split; [exact F2|]. split; [constructor; assumption|]. cbn [combine map List.concat fst snd]. rewrite V, V2.
    destruct F as (_ & _ & Hd & _). rewrite <- (points_app d (length x) (length (x ++ y)) (length (x ++ y ++ List.concat ys)) Hd) by (rewrite !app_length; lia).
    rewrite map_app. f_equal. apply map_ext_in. intros p Hp. apply points_lt in Hp; [|exact Hd]. rewrite app_assoc. rewrite (conv_prefix h (x ++ y)) by exact Hp. reflexivity.
Qed.
Lemma run_nosave f h i d x calls ys : fir_ok f h i d false x -> Forall2 (proper_call i d) calls ys ->
  exists f' rs, run_cv L f calls = Some (f', rs) /\ (exists x', fir_ok f' h i d false x') /\ Forall2 only_delivered calls rs /\
    map (fun p => delivered (fst p) (snd p)) (combine calls rs) = map (fun y => map (fun p => Some (conv_at h y p)) (points d 0 i)) ys.
Proof.
  intros F C. revert f x F. induction C as [|c y calls ys P C IH]; intros f x F.
  - exists f, []. split; [reflexivity|]. split; [exists x; exact F|]. split; [constructor|reflexivity].
  - destruct (call_ok f h i d false x c y F P) as (f1 & r & E & F1 & O & V). cbn [app length] in V, F1. destruct (IH f1 y F1) as (f2 & rs & E2 & F2 & O2 & V2).
    exists f2, (r :: rs). cbn [run_cv]. rewrite E. cbn [bind]. rewrite E2. cbn [bind fst snd]. rewrite <- surjective_pairing.
    split; [reflexivity|]. split; [exact F2|]. split; [constructor; assumption|]. cbn [combine map fst snd]. rewrite V, V2.
    destruct P as (_ & _ & _ & _ & Ei & _ & _ & _ & [Vl _]). cbn [len blk1] in Vl. rewrite Vl, Ei. reflexivity.
Qed.
Lemma reset_ok f h i d save x : fir_ok f h i d save x -> fir_ok (reset_cv L f) h i d save [].
Proof.
  intros (F1 & F2 & Hd & F). split; [exact F1|]. split; [exact F2|]. split; [exact Hd|]. cbn [reset_cv cf_obj]. eapply doc_fir_reset; [exact Dc|exact F].
Qed.
End Doc.
End P.

(** ** The reference library keeps the promises *)
Section R.
Context {K : CRing} (conj : K -> K) (div : K -> K -> K) (strict : bool).
Local Open Scope cr_scope.
Lemma readl_ok (b : block1) (m : mem K) x : holds1 m b x -> readl b m = Some (map x (seq 0 (len b))).
Proof.
  intros H. unfold readl. destruct (loop_inv (fun i l => v <- get1 m b i ;; Some (l ++ [v])) (fun i l => l = map x (seq 0 i)) (len b) 0 []) as (l & E & Q).
  - reflexivity.
  - intros i l Hi ->. rewrite get1_ok by lia. rewrite H by lia. cbn [bind]. eexists. split; [reflexivity|]. rewrite seq_app, map_app. reflexivity.
  - rewrite E, Q. reflexivity.
Qed.
Lemma map_nth_seq x n i : (i < n)%nat -> nth i (map x (seq 0 n)) (0 : K) = x i.
Proof. intros H. rewrite (nth_indep _ 0 (x 0%nat)) by (rewrite map_length, seq_length; exact H). rewrite map_nth, seq_nth by exact H. reflexivity. Qed.
Lemma suspectb_spec S R c P n : suspectb S R c P n = false <-> ~ suspect S R c P n.
Proof. destruct S, R; cbn [suspectb suspect]; try (split; [intros _ Q; exact Q|reflexivity]); rewrite ?Nat.eqb_neq, ?Nat.leb_gt; split; lia. Qed.
Lemma lin_conv_ext M N h (x y : nat -> K) p : (forall i, (i < N)%nat -> x i = y i) -> lin_conv M N h x p = lin_conv M N h y p.
Proof.
  intros E. rewrite !lin_conv_eq. apply sum_ext'. intros k Hk. destruct (_ && _)%bool eqn:B; [|reflexivity]. apply andb_true_iff in B. destruct B as [_ B]. apply Nat.ltb_lt in B. rewrite E by exact B. reflexivity.
Qed.
Lemma off_only (b : block1) (m m' : mem K) : off1 b m m' -> only1 b m m'.
Proof. intros [O _] a Ha. apply O. intros i Hi e. exact (Ha i Hi (eq_sym e)). Qed.
Lemma nth_map_all (l : list K) : map (fun i => nth i l 0) (seq 0 (length l)) = l.
Proof. apply nth_seq. Qed.
Lemma sig_reference_ok : sig_documented conj div (sig_reference conj div strict) strict (ref_is conj div strict).
Proof.
  constructor.
  - intros v m l U [Lv V]. cbn [vcopy sig_reference]. rewrite (ok1T strict v U). cbv iota. rewrite (readl_ok _ _ _ V). f_equal. rewrite <- Lv. apply nth_map_all.
  - intros coeffs S N d R times ah i o m x h Ui Uo F L0 HN Hd Ei HP W Dj Hx. cbn [vconvolve sig_reference]. rewrite (ok1T strict i Ui), (ok1T strict o Uo). cbn [andb].
    rewrite (kernel1_ok S coeffs h L0 F). cbn [bind]. rewrite (readl_ok _ _ _ Hx). cbn [bind].
    destruct (writes1 (vec o) (cv_len o) (fun n => if suspectb S R (length coeffs) (cv_len o) n then 0
       else lin_conv (length h) N (fun k => nth k h 0) x (n * d + first_sample R (length h))) (fun n m => put1 m (vec o) n
      (if suspectb S R (length coeffs) (cv_len o) n then 0
       else lin_conv (length h) N (fun k => nth k h 0) (fun k => nth k (map x (seq 0 (len (vec i)))) 0) (n * d + first_sample R (length h)))) m W (le_n _)) as (m' & E & O & V).
    + intros n mm Hn _. f_equal. destruct (suspectb _ _ _ _ _); [reflexivity|]. apply lin_conv_ext. intros k Hk. apply map_nth_seq. cbn [len vec]. lia.
    + exists m'. split; [exact E|]. split; [apply off_only; exact O|]. split.
      * split; [|exact (proj2 W)]. intros k Hk. apply (proj2 O). apply (proj1 W). exact Hk.
      * intros n Hn Q. rewrite V by exact Hn. destruct (Nat.ltb_spec n (cv_len o)); [|lia]. apply suspectb_spec in Q. rewrite Q. reflexivity.
  - intros M N R times ah b r i o m w x Ur Ui Uo HN Er Ei Eo Hb W Dr Di Hw Hx. cbn [vcorrelate sig_reference].
    rewrite (ok1T strict r Ur), (ok1T strict i Ui), (ok1T strict o Uo). cbn [andb]. rewrite (readl_ok _ _ _ Hw), (readl_ok _ _ _ Hx). cbn [bind].
    destruct (writes1 (vec o) (cv_len o) (fun n => scaled div b (corr_at conj M N (lead R M) w x n) (overlap M N (lead R M) n)) (fun n m => put1 m (vec o) n
      (scaled div b (corr_at conj M N (lead R M) (fun k => nth k (map w (seq 0 (len (vec r)))) 0) (fun k => nth k (map x (seq 0 (len (vec i)))) 0) n) (overlap M N (lead R M) n))) m W (le_n _)) as (m' & E & O & V).
    + intros n mm Hn _. do 2 f_equal. unfold corr_at. apply sum_ext'. intros k Hk. apply sum_ext'. intros j Hj. rewrite !map_nth_seq by (cbn [len vec]; lia). reflexivity.
    + exists m'. split; [exact E|]. split; [apply off_only; exact O|]. intros n Hn. rewrite V by exact Hn. cbn [len vec] in Hn. destruct (Nat.ltb_spec n (cv_len o)); [reflexivity|lia].
  - intros kernel S i d save times ah h F L0 Hi Hd Hh Hl. cbn [fir_create sig_reference]. rewrite (kernel1_ok S kernel h L0 F). cbn [bind]. eexists. split; [reflexivity|]. split; [reflexivity|exact Hd].
  - intros o h i d save x vi vo m y [-> Hd] Ui Uo [Ly V] Li Eo W Dj x0. cbn [firflt sig_reference]. rewrite (ok1T strict vi Ui), (ok1T strict vo Uo). cbn [andb].
    rewrite (readl_ok _ _ _ V). cbn [bind]. replace (map (fun i => nth i y 0) (seq 0 (len (vec vi)))) with y by (rewrite <- Ly; symmetry; apply nth_map_all). cbv zeta. fold x0.
    set (ps := points d (length x0) (length (x0 ++ y))) in *.
    assert (Lp : (length ps <= len (vec vo))%nat) by (unfold ps; rewrite points_len, app_length; cbn [len vec]; rewrite Eo, <- Li; apply ceil_le; exact Hd).
    destruct (writes1 (vec vo) (length ps) (fun q => conv_at h (x0 ++ y) (nth q ps 0%nat)) (fun q m => put1 m (vec vo) q (conv_at h (x0 ++ y) (nth q ps 0%nat))) m W Lp (fun _ _ _ _ => eq_refl)) as (m' & E & O & V').
    rewrite E. cbn [bind]. eexists; exists m'. split; [reflexivity|]. split; [split; [reflexivity|exact Hd]|]. split; [apply off_only; exact O|]. split.
    + intros q Hq. rewrite V' by lia. destruct (Nat.ltb_spec q (length ps)); [reflexivity|lia].
    + intros q Hq. rewrite V' by (cbn [len vec]; lia). destruct (Nat.ltb_spec q (length ps)); [lia|reflexivity].
  - intros o h i d save x [-> Hd]. split; [reflexivity|exact Hd].
Qed.
End R.
