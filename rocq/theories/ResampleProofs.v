(** Proofs about resampling. *)
From Coq Require Import ZArith List Lia Bool Arith.
From Verif Require Import Base Fir FirProofs Resample.
Import ListNotations.
Local Open Scope nat_scope.
Ltac Zify.zify_post_hook ::= Z.to_euclidean_division_equations.

Section P.
Context {K : CRing}.
Add Ring KringRs : (r_th K).
Implicit Types v x h : list K.

Lemma gather_ok v first stride : forall len, (forall k, k < len -> first + k * stride < length v) ->
  gather v first stride len = Some (map (fun k => nth (first + k * stride) v 0%cr) (seq 0 len)).
Proof.
  intros len. revert first. induction len as [|n IH]; intros first H; [reflexivity|]. cbn [gather].
  pose proof (H 0 ltac:(lia)) as H0. unfold bget. rewrite (nth_error_nth' v 0%cr) by lia. cbn [bind]. rewrite IH by (intros k Hk; pose proof (H (S k) ltac:(lia)); lia). cbn [bind seq map].
  rewrite <- seq_shift, map_map. f_equal. f_equal; [f_equal; lia|]. apply map_ext. intros k. f_equal. lia.
Qed.
Lemma nth_lset v i j (a : K) : i < length v -> nth j (lset v i a) 0%cr = if j =? i then a else nth j v 0%cr.
Proof.
  revert i j. induction v as [|y v IH]; intros i j H; cbn in H; [lia|]. destruct i, j; cbn; try reflexivity. apply IH. lia.
Qed.
Lemma scatter_ok stride src : 1 <= stride -> forall v first, (forall k, k < length src -> first + k * stride < length v) ->
  exists v', scatter v first stride src = Some v' /\ length v' = length v /\
    (forall k, k < length src -> nth (first + k * stride) v' 0%cr = nth k src 0%cr) /\
    (forall j, (forall k, k < length src -> j <> first + k * stride) -> nth j v' 0%cr = nth j v 0%cr).
Proof.
  intros St. induction src as [|a src IH]; intros v first H; cbn [scatter].
  { exists v. split; [reflexivity|]. split; [reflexivity|]. split; [intros k Hk; cbn in Hk; lia|reflexivity]. }
  cbn [length] in H. pose proof (H 0 ltac:(lia)) as H0. rewrite bput_some by lia. cbn [bind].
  destruct (IH (lset v first a) (first + stride)) as (v' & E & L & R1 & R2). { intros k Hk. rewrite lset_length. pose proof (H (S k) ltac:(lia)). lia. }
  exists v'. split; [exact E|]. split; [rewrite L; apply lset_length|]. split.
  - intros [|k] Hk; cbn [length nth] in *.
    + rewrite R2 by (intros k _; nia). rewrite nth_lset by lia. replace (first + 0 * stride) with first by lia. rewrite Nat.eqb_refl. reflexivity.
    + rewrite <- R1 by lia. f_equal. lia.
  - intros j Hj. cbn [length] in Hj. rewrite R2 by (intros k Hk; pose proof (Hj (S k) ltac:(lia)); lia). rewrite nth_lset by lia.
    destruct (Nat.eqb_spec j first) as [->|]; [|reflexivity]. exfalso. apply (Hj 0); lia.
Qed.

(** One call of a new filter. *)
Lemma filter_ok h i d f x (o : list K) : make_fir nonsym h i d = Some f -> length x = i -> length o = ceil_div i d ->
  exists f' n, filter true f x o = Some (f', map (fun q => conv_at h x (q * d)) (seq 0 (ceil_div i d)), n).
Proof.
  intros M Lx Lo. destruct (pieces nonsym h h i d f [(x, o)]) as (f' & r & E & O & F2 & _); [reflexivity|exact M|repeat constructor; assumption|].
  cbn [run] in E. destruct (filter true f x o) as [[[f1 out] n]|]; [|discriminate]. cbn [bind fst snd] in E. injection E as _ <-.
  inversion F2 as [|? ? ? ? (L1 & L2 & _) _ EA]; subst. cbn [fst snd] in *. cbn [flat_map app fst] in O. unfold outputs in O. cbn [flat_map fst snd] in O. rewrite app_nil_r in O.
  rewrite app_nil_r in O. assert (Ln : length (firstn n out) = ceil_div (length x) d) by (rewrite O, map_length, seq_length; reflexivity).
  rewrite firstn_length in Ln. assert (Fo : firstn n out = out) by (apply firstn_all2; lia). rewrite Fo in O. exists f1, n. rewrite O. reflexivity.
Qed.
Lemma make_h h i d : 1 < length h -> length h <= i + 1 -> 0 < d < length h -> exists f, make_fir nonsym h i d = Some f.
Proof. intros H1 H2 H3. apply (make_some nonsym h h i d); [reflexivity|lia|left; exact H1|lia|exact H3|exact H2]. Qed.

Lemma up_ok P M x : 1 <= P -> length x = M -> exists xx, upsampled P M x = Some xx /\ length xx = M * P /\
  forall p, p < M * P -> nth p xx 0%cr = stuffed P x p.
Proof.
  intros HP L. unfold upsampled, assign_sub. rewrite L, Nat.eqb_refl.
  destruct (scatter_ok P x HP (repeat 0%cr (tmp_size P M)) 0) as (xx & E & Lx & R1 & R2). { intros k Hk. rewrite repeat_length. unfold tmp_size. nia. }
  rewrite E. exists xx. split; [reflexivity|]. rewrite repeat_length in Lx. split; [exact Lx|]. intros p Hp. unfold stuffed. destruct (Nat.eqb_spec (p mod P) 0) as [D|D].
  - replace p with (0 + (p / P) * P) at 1 by nia. apply R1. nia.
  - rewrite R2; [apply nth_repeat|]. intros k Hk ->. apply D. cbn [Nat.add]. apply Nat.mod_mul. lia.
Qed.
Lemma conv_stuffed P M h x xx q Q : length xx = M * P -> (forall p, p < M * P -> nth p xx 0%cr = stuffed P x p) -> q * Q < M * P ->
  conv_at h xx (q * Q) = resampled P Q h x q.
Proof.
  intros L H B. unfold conv_at, resampled. apply sum_ext. intros j Hj. f_equal. destruct (j <=? q * Q) eqn:E; [|reflexivity]. apply H. lia.
Qed.
Lemma ceil_bound a d q : 1 <= d -> q < ceil_div a d -> q * d < a.
Proof. intros H1 H2. unfold ceil_div in H2. nia. Qed.
Lemma ceil_one a : ceil_div a 1 = a.
Proof. unfold ceil_div. rewrite Nat.div_1_r. lia. Qed.

Lemma simple_ok P Q M h x : 1 <= P -> 1 <= Q -> 1 < length h -> length h <= M * P + 1 -> length x = M ->
  simple P Q M h x = Some (map (resampled P Q h x) (seq 0 (ceil_div (M * P) Q))).
Proof.
  intros HP HQ H1 H2 L. unfold simple. destruct (up_ok P M x HP L) as (xx & -> & Lx & Hx). cbn [bind].
  destruct (make_h h (tmp_size P M) 1 H1 H2 ltac:(lia)) as (f & Ef). rewrite Ef. cbn [bind].
  destruct (filter_ok h (tmp_size P M) 1 f xx (repeat 0%cr (tmp_size P M)) Ef Lx) as (f' & n & E); [rewrite repeat_length, ceil_one; reflexivity|]. rewrite E. cbn [bind fst snd]. rewrite ceil_one.
  rewrite gather_ok; [|intros k Hk; rewrite map_length, seq_length; cbn [Nat.add]; apply ceil_bound; assumption].
  f_equal. apply map_ext_in. intros q Hq. apply in_seq in Hq. cbn [Nat.add].
  pose proof (ceil_bound (M * P) Q q HQ (proj2 Hq)) as B.
  rewrite (nth_indep _ _ (conv_at h xx (0 * 1))) by (rewrite map_length, seq_length; exact B).
  rewrite (map_nth (fun q => conv_at h xx (q * 1))), seq_nth by exact B. cbn [Nat.add]. replace (q * Q * 1) with (q * Q) by lia. apply (conv_stuffed P M); assumption.
Qed.
Lemma decimating_ok P Q M h x : 1 <= P -> 1 <= Q < length h -> 1 < length h -> length h <= M * P + 1 -> length x = M ->
  decimating P Q M h x = Some (map (resampled P Q h x) (seq 0 (ceil_div (M * P) Q))).
Proof.
  intros HP HQ H1 H2 L. unfold decimating. destruct (up_ok P M x HP L) as (xx & -> & Lx & Hx). cbn [bind].
  destruct (make_h h (tmp_size P M) Q H1 H2 ltac:(lia)) as (f & Ef). rewrite Ef. cbn [bind].
  destruct (filter_ok h (tmp_size P M) Q f xx (repeat 0%cr (out_size P Q M)) Ef Lx) as (f' & n & E); [rewrite repeat_length; reflexivity|]. rewrite E. cbn [bind fst snd].
  f_equal. apply map_ext_in. intros q Hq. apply in_seq in Hq. apply (conv_stuffed P M); [assumption|assumption|]. apply ceil_bound; [lia|]. exact (proj2 Hq).
Qed.

(** ** Polyphase *)
Lemma loop_snoc {St} (f : nat -> St -> option St) n s t : loop f s (S n) t = (u <- loop f s n t ;; f (s + n) u).
Proof.
  replace (S n) with (n + 1) by lia. rewrite loop_app. destruct (loop f s n t) as [u|]; [|reflexivity]. cbn. destruct (f (s + n) u); reflexivity.
Qed.
Lemma sum_blocks (P : nat) (f : nat -> K) : forall S, sum f (P * S) = sum (fun t => sum (fun s => f (t * P + s)) P) S.
Proof.
  induction S as [|S IH]; [rewrite Nat.mul_0_r; reflexivity|]. replace (P * Datatypes.S S) with (P * S + P) by lia. rewrite sum_app, IH. cbn [sum]. f_equal.
  apply sum_ext. intros s Hs. f_equal. lia.
Qed.
Lemma sum_only (f : nat -> K) n i : i < n -> (forall k, k < n -> k <> i -> f k = 0%cr) -> sum f n = f i.
Proof.
  induction n as [|n IH]; intros Hi H; [lia|]. cbn [sum]. destruct (Nat.eq_dec i n) as [->|N].
  - rewrite sum_0 by (intros k Hk; apply H; lia). ring.
  - rewrite IH by (lia || (intros; apply H; lia)). rewrite (H n) by lia. ring.
Qed.
Lemma phase_ok P S h x r n : 1 <= P -> r < P -> length h = P * S ->
  conv_at (map (fun k => nth (r + k * P) h 0%cr) (seq 0 S)) x n = resampled P 1 h x (n * P + r).
Proof.
  intros HP Hr L. unfold conv_at, resampled. rewrite map_length, seq_length, L, sum_blocks. apply sum_ext. intros t Ht.
  rewrite (sum_only _ P r Hr).
  - rewrite (nth_indep _ _ (nth (r + 0 * P) h 0%cr)) by (rewrite map_length, seq_length; exact Ht). rewrite (map_nth (fun k => nth (r + k * P) h 0%cr)), seq_nth by exact Ht.
    replace (t * P + r) with (r + t * P) by lia. cbn [Nat.add]. f_equal.
    assert (Le : (r + t * P <=? (n * P + r) * 1) = (t <=? n)). { destruct (Nat.leb_spec t n), (Nat.leb_spec (r + t * P) ((n * P + r) * 1)); try reflexivity; nia. }
    rewrite Le. destruct (t <=? n) eqn:E; [|reflexivity]. apply Nat.leb_le in E. unfold stuffed. replace ((n * P + r) * 1 - (r + t * P)) with ((n - t) * P) by nia.
    rewrite Nat.mod_mul by lia. cbn [Nat.eqb]. rewrite Nat.div_mul by lia. reflexivity.
  - intros s Hs N. destruct (t * P + s <=? (n * P + r) * 1) eqn:E; [|ring]. apply Nat.leb_le in E. unfold stuffed.
    destruct (Nat.eqb_spec (((n * P + r) * 1 - (t * P + s)) mod P) 0) as [D|D]; [|ring]. exfalso.
    set (u := (n * P + r) * 1 - (t * P + s)) in *. assert (U : u = u / P * P) by (pose proof (Nat.div_mod u P ltac:(lia)); lia).
    assert (Q : n * P + r = (t + u / P) * P + s) by (unfold u in U at 1; lia).
    assert (n = t + u / P) by nia. nia.
Qed.
Lemma poly_loop P M S h x : 1 <= P -> 1 < S -> S <= M + 1 -> length x = M -> length h = P * S ->
  forall n yy0, n <= P -> length yy0 = M * P ->
  exists yy, loop (fun r yy =>
                hr <- gather h r P S ;; lp <- make_fir nonsym hr M 1 ;; o <- gather yy r P (tmp_size P M / P) ;; y <- filter true lp x o ;;
                assign_sub yy r P (tmp_size P M / P) (snd (fst y))) 0 n yy0 = Some yy /\ length yy = M * P /\
    forall t r, t < M -> r < n -> nth (t * P + r) yy 0%cr = resampled P 1 h x (t * P + r).
Proof.
  intros HP HS HM Lx Lh. assert (D : tmp_size P M / P = M) by (unfold tmp_size; apply Nat.div_mul; lia). rewrite D.
  induction n as [|n IH]; intros yy0 Hn L0.
  { exists yy0. split; [reflexivity|]. split; [exact L0|]. intros; lia. }
  destruct (IH yy0 ltac:(lia) L0) as (yy & E & L & H). rewrite loop_snoc, E. cbn [bind Nat.add].
  rewrite (gather_ok h) by (intros k Hk; nia). cbn [bind]. set (hr := map _ _). assert (Lr : length hr = S) by (unfold hr; rewrite map_length, seq_length; reflexivity).
  destruct (make_h hr M 1 ltac:(lia) ltac:(lia) ltac:(lia)) as (f & Ef). rewrite Ef. cbn [bind]. rewrite (gather_ok yy) by (intros k Hk; nia). cbn [bind].
  destruct (filter_ok hr M 1 f x (map (fun k => nth (n + k * P) yy 0%cr) (seq 0 M)) Ef Lx) as (f' & c & Ef'); [rewrite map_length, seq_length, ceil_one; reflexivity|]. rewrite Ef'. cbn [bind fst snd].
  rewrite ceil_one. unfold assign_sub. rewrite map_length, seq_length, Nat.eqb_refl.
  destruct (scatter_ok P (map (fun q => conv_at hr x (q * 1)) (seq 0 M)) HP yy n) as (yy' & Es & L' & R1 & R2). { intros k Hk. rewrite map_length, seq_length in Hk. nia. }
  exists yy'. split; [exact Es|]. split; [congruence|]. rewrite map_length, seq_length in R1, R2. intros t r Ht Hr. destruct (Nat.eq_dec r n) as [->|N].
  - replace (t * P + n) with (n + t * P) at 1 by lia. rewrite R1 by exact Ht. rewrite (nth_indep _ _ (conv_at hr x (0 * 1))) by (rewrite map_length, seq_length; exact Ht).
    rewrite (map_nth (fun q => conv_at hr x (q * 1))), seq_nth by exact Ht. cbn [Nat.add]. replace (t * 1) with t by lia. apply (phase_ok P S); [exact HP|lia|exact Lh].
  - rewrite R2; [apply H; [exact Ht|lia]|]. intros k Hk Eq. assert (t = k) by nia. nia.
Qed.
Lemma resampled_1 P Q h x q : resampled P 1 h x (q * Q) = resampled P Q h x q.
Proof. unfold resampled. rewrite Nat.mul_1_r. reflexivity. Qed.
Lemma polyphase_ok P Q M S h x yy0 : 1 <= P -> 1 <= Q -> 1 < S -> S <= M + 1 -> length x = M -> length h = P * S -> length yy0 = M * P ->
  polyphase P Q M S h x yy0 = Some (map (resampled P Q h x) (seq 0 (ceil_div (M * P) Q))).
Proof.
  intros HP HQ HS HM Lx Lh L0. unfold polyphase. destruct (poly_loop P M S h x HP HS HM Lx Lh P yy0 ltac:(lia) L0) as (yy & E & L & H). rewrite E. cbn [bind].
  rewrite gather_ok; [|intros k Hk; rewrite L; cbn [Nat.add]; apply ceil_bound; assumption].
  f_equal. apply map_ext_in. intros q Hq. apply in_seq in Hq. cbn [Nat.add].
  pose proof (ceil_bound (M * P) Q q HQ (proj2 Hq)) as B.
  rewrite <- resampled_1. pose proof (Nat.div_mod (q * Q) P ltac:(lia)) as DM. pose proof (Nat.mod_upper_bound (q * Q) P ltac:(lia)) as MB.
  replace (q * Q) with (q * Q / P * P + q * Q mod P) by lia. apply H; [|exact MB]. nia.
Qed.
End P.
