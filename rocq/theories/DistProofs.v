(** Lemmas about distributions. *)
From Coq Require Import List Arith Lia Bool Permutation.
From Verif Require Import Base Dist.
Import ListNotations.

Lemma cdiv_some a b : b <> 0 -> cdiv a b = Some (a / b).
Proof. intros. unfold cdiv. destruct (Nat.eqb_spec b 0); [lia|reflexivity]. Qed.
Lemma cmod_some a b : b <> 0 -> cmod a b = Some (a mod b).
Proof. intros. unfold cmod. destruct (Nat.eqb_spec b 0); [lia|reflexivity]. Qed.
Lemma csub_some a b : b <= a -> csub a b = Some (a - b).
Proof. intros. unfold csub. destruct (Nat.leb_spec b a); [reflexivity|lia]. Qed.

Lemma div_is a b q r : r < b -> a = q * b + r -> a / b = q.
Proof. intros H ->. symmetry. apply (Nat.div_unique _ _ q r); lia. Qed.
Lemma mod_is a b q r : r < b -> a = q * b + r -> a mod b = r.
Proof. intros H ->. symmetry. apply (Nat.mod_unique _ _ q r); lia. Qed.
Lemma dm a b : b <> 0 -> exists q r, r < b /\ a = q * b + r /\ a / b = q /\ a mod b = r.
Proof.
  intros H. exists (a / b), (a mod b). pose proof (Nat.mod_upper_bound a b H).
  pose proof (Nat.div_mod a b H). repeat split; try lia.
Qed.

(** What the rest of the development needs to know about a distribution. *)
Definition dist_spec (d : dist) (n : nat) : Prop :=
  (forall sb, sb < num_subblocks d -> exists s k,
     subblock_size d n sb = Some s /\ subblock_patches d n sb = Some k /\
     (forall j, j < s -> exists g, global_from_local_index d n sb j = Some g /\ g < n /\
        subblock_from_index d n g = Some sb /\ local_from_global_index d n g = Some j) /\
     (forall p, p < k -> exists f lf l,
        patch_global_dom d n sb p = Some (f, l) /\ patch_local_dom d n sb p = Some (lf, l) /\
        forall x, x < l -> lf + x < s /\ global_from_local_index d n sb (lf + x) = Some (f + x) /\
          patch_from_index d n (f + x) = Some p) /\
     (forall p, k <= p -> patch_global_dom d n sb p = None /\ patch_local_dom d n sb p = None) /\
     (forall j, j < s -> exists p f l, p < k /\ patch_local_dom d n sb p = Some (f, l) /\
        f <= j < f + l)) /\
  (forall sb, num_subblocks d <= sb -> forall p,
     patch_global_dom d n sb p = None /\ patch_local_dom d n sb p = None /\
     subblock_size d n sb = None) /\
  (forall i, i < n -> exists sb j s, subblock_from_index d n i = Some sb /\
     sb < num_subblocks d /\ local_from_global_index d n i = Some j /\
     subblock_size d n sb = Some s /\ j < s /\ global_from_local_index d n sb j = Some i).

Ltac lt_true := match goal with |- context[?a <? ?b] =>
  replace (a <? b) with true by (symmetry; apply Nat.ltb_lt; lia) end.
Ltac lt_false := match goal with |- context[?a <? ?b] =>
  replace (a <? b) with false by (symmetry; apply Nat.ltb_ge; lia) end.

Lemma whole_spec n : dist_spec Whole n.
Proof.
  unfold dist_spec. cbn [num_subblocks]. split; [|split].
  - intros sb H. assert (sb = 0) by lia. subst. exists n, 1. cbn [subblock_size subblock_patches patch_global_dom patch_local_dom global_from_local_index subblock_from_index local_from_global_index patch_from_index Nat.eqb andb].
    repeat split.
    + intros j Hj. exists j. lt_true. cbn [andb]. auto.
    + intros p Hp. assert (p = 0) by lia. subst. exists 0, 0, n. repeat split; auto; try lia.
      * lt_true. reflexivity.
      * lt_true. reflexivity.
    + destruct p; [lia|reflexivity].
    + destruct p; [lia|reflexivity].
    + intros j Hj. exists 0, 0, n. repeat split; auto; lia.
  - intros sb H p. cbn. destruct sb; [lia|]. auto.
  - intros i Hi. exists 0, i, n. cbn [subblock_size subblock_patches patch_global_dom patch_local_dom global_from_local_index subblock_from_index local_from_global_index patch_from_index Nat.eqb andb]. lt_true. cbn [andb]. repeat split; auto; lia.
Qed.

Lemma block_spec num n : 0 < num -> dist_spec (Block num) n.
Proof.
  intros Hn. destruct (dm n num ltac:(lia)) as (q & r & Hr & En & Eq & Er).
  unfold dist_spec. cbn [num_subblocks]. split; [|split].
  - intros sb Hs. exists (q + (if sb <? r then 1 else 0)), 1.
    unfold subblock_size, subblock_patches, patch_global_dom, patch_local_dom,
      segment_size_block, segment_start, global_from_local_index, subblock_from_index,
      local_from_global_index, patch_from_index.
    rewrite !cdiv_some, !cmod_some by lia. cbn [bind]. rewrite Eq, Er. 
    replace (sb <? num) with true by (symmetry; apply Nat.ltb_lt; lia).
    split; [reflexivity|]. split; [reflexivity|]. split; [|split; [|split]].
    + intros j Hj. eexists; split; [reflexivity|].
      destruct (Nat.ltb_spec sb r) as [L|L].
      * rewrite Nat.min_l by lia.
        assert (G : sb * q + sb + j = sb * (q + 1) + j) by lia. rewrite G.
        assert (B : (sb + 1) * (q + 1) <= r * (q + 1)) by (apply Nat.mul_le_mono_r; lia).
        assert (B2 : r * (q + 1) <= n) by (rewrite En; pose proof (Nat.mul_le_mono_r r num q); lia).
        split; [lia|]. 
        replace (sb * (q + 1) + j <? (q + 1) * r) with true by (symmetry; apply Nat.ltb_lt; lia).
        rewrite cdiv_some, cmod_some by lia.
        rewrite (div_is _ _ sb j), (mod_is _ _ sb j) by lia. auto.
      * rewrite Nat.min_r by lia.
        assert (B : (sb + 1) * q <= num * q) by (apply Nat.mul_le_mono_r; lia).
        assert (B2 : r * q <= sb * q) by (apply Nat.mul_le_mono_r; lia).
        split; [lia|].
        replace (sb * q + r + j <? (q + 1) * r) with false by (symmetry; apply Nat.ltb_ge; lia).
        rewrite csub_some by lia. cbn [bind]. rewrite cdiv_some, cmod_some by lia.
        replace (sb * q + r + j - r) with (sb * q + j) by lia.
        rewrite (div_is _ _ sb j), (mod_is _ _ sb j) by lia. auto.
    + intros p Hp. assert (p = 0) by lia. subst p. cbn [Nat.eqb].
      eexists; exists 0; eexists; split; [reflexivity|]. split; [reflexivity|].
      intros x Hx. split; [lia|]. split; [f_equal; lia|].
      assert (sb * q + Nat.min sb r + x < n); [|lt_true; reflexivity].
      destruct (Nat.ltb_spec sb r).
      * assert (B : (sb + 1) * q <= num * q) by (apply Nat.mul_le_mono_r; lia). lia.
      * assert (B : (sb + 1) * q <= num * q) by (apply Nat.mul_le_mono_r; lia). lia.
    + intros p Hp. destruct p; [lia|]. auto.
    + intros j Hj. exists 0. eexists; eexists; split; [lia|]. split; [reflexivity|]. lia.
  - intros sb H p. unfold patch_global_dom, patch_local_dom, subblock_size. replace (sb <? num) with false by (symmetry; apply Nat.ltb_ge; lia). auto.
  - intros i Hi. 
    unfold subblock_size, patch_global_dom, patch_local_dom,
      segment_size_block, segment_start, global_from_local_index, subblock_from_index,
      local_from_global_index, patch_from_index.
    rewrite !cdiv_some, !cmod_some by lia. cbn [bind]. rewrite Eq, Er. 
    destruct (Nat.ltb_spec i ((q + 1) * r)) as [L|L].
    + destruct (dm i (q + 1) ltac:(lia)) as (sb & j & Hj & Ei & Edi & Emi).
      exists sb, j. rewrite cdiv_some, cmod_some, Edi, Emi by lia.
      assert (sb < r). { apply (Nat.mul_lt_mono_pos_r (q + 1)); lia. }
      exists (q + 1). repeat split; try lia.
      * repeat lt_true. reflexivity.
      * f_equal. rewrite Nat.min_l by lia. lia.
    + assert (q <> 0) by (intros ->; lia).
      rewrite csub_some by lia. cbn [bind]. rewrite cdiv_some, cmod_some by lia.
      destruct (dm (i - r) q ltac:(lia)) as (sb & j & Hj & Ei & Edi & Emi).
      exists sb, j, q. rewrite Edi, Emi.
      assert (sb < num). { apply (Nat.mul_lt_mono_pos_r q); lia. }
      assert (r <= sb). { destruct (le_lt_dec r sb); [assumption|].
        assert ((sb + 1) * q <= r * q) by (apply Nat.mul_le_mono_r; lia). lia. }
      repeat split; try lia.
      * lt_true. lt_false. f_equal; lia.
      * f_equal. rewrite Nat.min_r by lia. lia.
Qed.

(** ** Block-cyclic *)
Lemma num_chunks_spec n C : 0 < C -> exists nc, num_chunks n C = Some nc /\
  (forall c, c < nc <-> c * C < n) /\
  (n mod C <> 0 -> nc <> 0 /\ n = (nc - 1) * C + n mod C) /\ (n mod C = 0 -> n = nc * C).
Proof.
  intros HC. destruct (dm n C ltac:(lia)) as (q & r & Hr & En & Eq & Er).
  unfold num_chunks. rewrite cdiv_some, cmod_some by lia. cbn [bind]. rewrite Eq, Er.
  eexists; split; [reflexivity|].
  destruct (Nat.eqb_spec r 0) as [Z|Z].
  - subst r. split; [|split; lia]. intros c. split; intros H.
    + assert ((c + 1) * C <= q * C) by (apply Nat.mul_le_mono_r; lia). lia.
    + destruct (le_lt_dec q c); [|lia].
      assert (q * C <= c * C) by (apply Nat.mul_le_mono_r; lia). lia.
  - split; [|split; [intros _; split; [lia|]|lia]].
    + intros c. split; intros H.
      * assert (c * C <= q * C) by (apply Nat.mul_le_mono_r; lia). lia.
      * destruct (le_lt_dec (q + 1) c); [|lia].
        assert ((q + 1) * C <= c * C) by (apply Nat.mul_le_mono_r; lia). lia.
    + replace (q + 1 - 1) with q by lia. lia.
Qed.

Lemma count_spec m N pos : 0 < N -> pos < N ->
  forall j, j < m / N + (if pos <? m mod N then 1 else 0) <-> pos + j * N < m.
Proof.
  intros HN Hp j. destruct (dm m N ltac:(lia)) as (q & r & Hr & Em & -> & ->).
  destruct (Nat.ltb_spec pos r); split; intros H'.
  - assert (j * N <= q * N) by (apply Nat.mul_le_mono_r; lia). lia.
  - destruct (le_lt_dec (q + 1) j); [|lia].
    assert ((q + 1) * N <= j * N) by (apply Nat.mul_le_mono_r; lia). lia.
  - assert ((j + 1) * N <= q * N) by (apply Nat.mul_le_mono_r; lia). lia.
  - destruct (le_lt_dec q j); [|lia].
    assert (q * N <= j * N) by (apply Nat.mul_le_mono_r; lia). lia.
Qed.

(** The condition that singles out the subblock with the last chunk. *)
Lemma last_cond m N pos k : 0 < N -> pos < N -> pos + k * N < m ->
  (((pos + 1) mod N =? m mod N) = true /\ m <= pos + (k + 1) * N) <-> pos + k * N + 1 = m.
Proof.
  intros HN Hp Hk. split.
  - intros [H L]. apply Nat.eqb_eq in H.
    destruct (dm m N ltac:(lia)) as (q & r & Hr & Em & _ & E2). rewrite E2 in H.
    destruct (Nat.eq_dec (pos + 1) N) as [E|E].
    + rewrite E, Nat.mod_same in H by lia. subst r.
      assert (q = k + 1); [|subst; lia].
      assert (k < q) by (destruct (le_lt_dec q k) as [X|]; [apply (Nat.mul_le_mono_r _ _ N) in X; lia|lia]).
      destruct (le_lt_dec (k + 2) q) as [X|]; [apply (Nat.mul_le_mono_r _ _ N) in X; lia|lia].
    + rewrite Nat.mod_small in H by lia. subst r.
      assert (q = k); [|subst; lia].
      destruct (le_lt_dec q k) as [X|X].
      * destruct (Nat.eq_dec q k); [assumption|].
        assert (Y : q + 1 <= k) by lia. apply (Nat.mul_le_mono_r _ _ N) in Y. lia.
      * assert (Y : k + 1 <= q) by lia. apply (Nat.mul_le_mono_r _ _ N) in Y. lia.
  - intros E. split; [|lia]. apply Nat.eqb_eq. subst m.
    replace (pos + k * N + 1) with (pos + 1 + k * N) by lia.
    rewrite Nat.mod_add by lia. reflexivity.
Qed.

Section Cyc.
  Variables n N C : nat.
  Hypothesis HN : 0 < N.
  Hypothesis HC : 0 < C.

  (** Number of elements of global chunk [c]. *)
  Definition csize (c : nat) : nat := Nat.min C (n - c * C).

  Lemma chunks_spec sb : sb < N -> exists k, segment_chunks n N C sb = Some k /\
    forall p, p < k <-> (sb + p * N) * C < n.
  Proof.
    intros Hs. unfold segment_chunks. lt_true.
    destruct (num_chunks_spec n C HC) as (nc & -> & Hnc & _). cbn [bind].
    rewrite cdiv_some, cmod_some by lia. cbn [bind]. eexists; split; [reflexivity|].
    intros p. rewrite count_spec by assumption. apply Hnc.
  Qed.

  Lemma chunk_size_spec sb p : sb < N -> (sb + p * N) * C < n ->
    segment_chunk_size n N C sb p = Some (csize (sb + p * N)).
  Proof.
    intros Hs Hp. unfold segment_chunk_size, csize. lt_true.
    destruct (num_chunks_spec n C HC) as (nc & -> & Hnc & Hr & Hz). cbn [bind].
    rewrite cdiv_some, cmod_some by lia. cbn [bind].
    apply Hnc in Hp. pose proof (count_spec nc N sb HN Hs) as Hc.
    set (k := nc / N + (if sb <? nc mod N then 1 else 0)) in *.
    pose proof (proj2 (Hc p) Hp) as Hpk.
    replace (p <? k) with true by (symmetry; apply Nat.ltb_lt; lia).
    pose proof (last_cond nc N sb p HN Hs Hp) as Hl.
    assert (Hk : (p =? k - 1) = true <-> nc <= sb + (p + 1) * N).
    { rewrite Nat.eqb_eq. split; intros H.
      - destruct (le_lt_dec nc (sb + (p + 1) * N)) as [X|X]; [exact X|].
        apply Hc in X. lia.
      - destruct (le_lt_dec k (p + 1)) as [X|X]; [lia|]. apply Hc in X. lia. }
    destruct (Nat.eqb_spec (n mod C) 0) as [E|E]; cbn [negb andb].
    - f_equal. specialize (Hz E). 
      assert ((sb + p * N + 1) * C <= nc * C) by (apply Nat.mul_le_mono_r; lia). lia.
    - destruct (Hr E) as [Hn0 En].
      pose proof (Nat.mod_upper_bound n C ltac:(lia)) as Hm.
      destruct ((sb + 1) mod N =? nc mod N) eqn:E1; cbn [andb].
      + destruct (p =? k - 1) eqn:E2.
        * f_equal. assert (X : sb + p * N + 1 = nc) by (apply Hl; split; [auto|apply Hk; auto]).
          replace (nc - 1) with (sb + p * N) in En by lia. lia.
        * f_equal. assert (X : sb + p * N + 1 <> nc).
          { intros X. apply Hl in X as [_ X]. apply Hk in X. congruence. }
          assert (Y : (sb + p * N + 1) * C <= (nc - 1) * C) by (apply Nat.mul_le_mono_r; lia). lia.
      + f_equal. assert (X : sb + p * N + 1 <> nc).
        { intros X. apply Hl in X as [X _]. congruence. }
        assert (Y : (sb + p * N + 1) * C <= (nc - 1) * C) by (apply Nat.mul_le_mono_r; lia). lia.
  Qed.

  Definition glob (sb j : nat) : nat := (j / C * N + sb) * C + j mod C.

  Lemma glob_eq sb p x : x < C -> glob sb (p * C + x) = (sb + p * N) * C + x.
  Proof.
    intros H. unfold glob. rewrite (div_is _ _ p x), (mod_is _ _ p x) by lia. lia.
  Qed.

  Lemma seg_size_spec sb : sb < N -> exists s, segment_size_cyclic n N C sb = Some s /\
    forall j, j < s <-> glob sb j < n.
  Proof.
    intros Hs. unfold segment_size_cyclic. lt_true.
    destruct (num_chunks_spec n C HC) as (nc & -> & Hnc & Hr & Hz). cbn [bind].
    rewrite cdiv_some, cmod_some by lia. cbn [bind].
    pose proof (count_spec nc N sb HN Hs) as Hc.
    set (k := nc / N + (if sb <? nc mod N then 1 else 0)) in *.
    pose proof (Nat.mod_upper_bound n C ltac:(lia)) as Hm.
    (* j in terms of chunk p and offset x *)
    assert (Full : forall p x, x < C -> p * C + x < k * C <-> sb + p * N < nc).
    { intros p x Hx. rewrite <- Hc. split; intros H.
      - destruct (le_lt_dec k p) as [X|X]; [apply (Nat.mul_le_mono_r _ _ C) in X; lia|exact X].
      - assert ((p + 1) * C <= k * C) by (apply Nat.mul_le_mono_r; lia). lia. }
    assert (Cases : n mod C <> 0 -> forall p x, x < C -> sb + p * N < nc ->
              sb + p * N + 1 <> nc -> (sb + p * N) * C + x < n).
    { intros E p x Hx Hp Hne. destruct (Hr E) as [_ En].
      assert (Y : (sb + p * N + 1) * C <= (nc - 1) * C) by (apply Nat.mul_le_mono_r; lia). lia. }
    destruct (Nat.eqb_spec (n mod C) 0) as [E|E]; cbn [negb andb].
    - eexists; split; [reflexivity|]. intros j.
      destruct (dm j C ltac:(lia)) as (p & x & Hx & -> & _ & _).
      rewrite glob_eq, Full by assumption. specialize (Hz E). split; intros H.
      + assert ((sb + p * N + 1) * C <= nc * C) by (apply Nat.mul_le_mono_r; lia). lia.
      + apply Hnc. lia.
    - destruct (Hr E) as [Hn0 En].
      destruct ((sb + 1) mod N =? nc mod N) eqn:E1.
      + assert (Hk : 0 < k).
        { apply Hc. apply Nat.eqb_eq in E1.
          destruct (le_lt_dec nc sb) as [X|X]; [|lia].
          rewrite (Nat.mod_small nc) in E1 by lia.
          destruct (Nat.eq_dec (sb + 1) N) as [Y|Y].
          - rewrite Y, Nat.mod_same in E1 by lia. lia.
          - rewrite Nat.mod_small in E1 by lia. lia. }
        assert (HkC : C <= k * C) by (pose proof (Nat.mul_le_mono_r 1 k C); lia).
        rewrite csub_some by exact HkC. cbn [bind]. eexists; split; [reflexivity|].
        assert (Last : sb + (k - 1) * N + 1 = nc).
        { pose proof (proj1 (Hc (k - 1)) ltac:(lia)) as H1.
          apply last_cond; auto. split; [exact E1|].
          destruct (le_lt_dec nc (sb + (k - 1 + 1) * N)) as [X|X]; [exact X|].
          apply Hc in X. lia. }
        intros j. destruct (dm j C ltac:(lia)) as (p & x & Hx & -> & _ & _).
        rewrite glob_eq by assumption.
        assert (HkC' : k * C - C = (k - 1) * C) by (rewrite Nat.mul_sub_distr_r; lia).
        rewrite HkC'. destruct (lt_eq_lt_dec p (k - 1)) as [[X|X]|X].
        * assert ((p + 1) * C <= (k - 1) * C) by (apply Nat.mul_le_mono_r; lia).
          split; intros _; [|lia]. apply Cases; auto.
          -- apply Hc. lia.
          -- intros Y. assert (p * N = (k - 1) * N) by lia. apply Nat.mul_cancel_r in H0; lia.
        * subst p. replace (sb + (k - 1) * N) with (nc - 1) by lia. split; lia.
        * assert (k * C <= p * C) by (apply Nat.mul_le_mono_r; lia). split; intros H'; [lia|].
          assert (Y : (sb + p * N) * C < n) by lia. apply Hnc in Y. apply Hc in Y. lia.
      + eexists; split; [reflexivity|]. intros j.
        destruct (dm j C ltac:(lia)) as (p & x & Hx & -> & _ & _).
        rewrite glob_eq, Full by assumption. split; intros H.
        * apply Cases; auto. intros Y. apply last_cond in Y as [Y _]; auto. congruence.
        * apply Hnc. lia.
  Qed.

  Lemma cyclic_from g sb j : sb < N -> g = glob sb j ->
    subblock_from_index (Cyclic N C) n g = Some sb /\
    local_from_global_index (Cyclic N C) n g = Some j /\
    patch_from_index (Cyclic N C) n g = Some (j / C).
  Proof.
    intros Hs ->. destruct (dm j C ltac:(lia)) as (p & x & Hx & -> & E1 & _).
    rewrite E1. rewrite glob_eq by assumption.
    unfold subblock_from_index, local_from_global_index, patch_from_index.
    rewrite !cdiv_some, cmod_some by lia. cbn [bind].
    rewrite (div_is _ C (sb + p * N) x), (mod_is _ C (sb + p * N) x) by lia.
    rewrite cmod_some by lia. cbn [bind]. rewrite (mod_is _ N p sb) by lia.
    rewrite csub_some by lia. cbn [bind]. rewrite cdiv_some by lia. cbn [bind].
    replace (sb + p * N - sb) with (p * N) by lia. rewrite Nat.div_mul by lia. auto.
  Qed.

  Lemma cyclic_spec : dist_spec (Cyclic N C) n.
  Proof.
    unfold dist_spec. cbn [num_subblocks]. split; [|split].
    - intros sb Hs. destruct (seg_size_spec sb Hs) as (s & Es & Hss).
      destruct (chunks_spec sb Hs) as (k & Ek & Hk).
      exists s, k. unfold subblock_size, subblock_patches. lt_true.
      split; [exact Es|]. split; [exact Ek|].
      assert (G : forall j, global_from_local_index (Cyclic N C) n sb j = Some (glob sb j)).
      { intros j. unfold global_from_local_index. lt_true.
        rewrite cdiv_some, cmod_some by lia. reflexivity. }
      assert (PG : forall p, p < k ->
        patch_global_dom (Cyclic N C) n sb p = Some ((sb + p * N) * C, csize (sb + p * N)) /\
        patch_local_dom (Cyclic N C) n sb p = Some (p * C, csize (sb + p * N))).
      { intros p Hp. unfold patch_global_dom, patch_local_dom, subblock_patches.
        replace (sb <? N) with true by (symmetry; apply Nat.ltb_lt; lia).
        rewrite Ek. cbn [bind]. lt_true. rewrite chunk_size_spec by (auto; apply Hk; auto).
        auto. }
      split; [|split; [|split]].
      + intros j Hj. exists (glob sb j). split; [apply G|]. split; [apply Hss; exact Hj|].
        destruct (cyclic_from (glob sb j) sb j Hs eq_refl) as (A & B & _). auto.
      + intros p Hp. destruct (PG p Hp) as [E1 E2].
        eexists; eexists; eexists; split; [exact E1|]. split; [exact E2|].
        intros x Hx. unfold csize in Hx.
        assert (Ex : glob sb (p * C + x) = (sb + p * N) * C + x) by (apply glob_eq; lia).
        split; [apply Hss; rewrite Ex; lia|]. split; [rewrite G, Ex; reflexivity|].
        rewrite <- Ex. destruct (cyclic_from _ sb (p * C + x) Hs eq_refl) as (_ & _ & ->).
        rewrite (div_is _ _ p x) by lia. reflexivity.
      + intros p Hp. unfold patch_global_dom, patch_local_dom, subblock_patches.
        replace (sb <? N) with true by (symmetry; apply Nat.ltb_lt; lia).
        rewrite Ek. cbn [bind]. lt_false. auto.
      + intros j Hj. apply Hss in Hj. destruct (dm j C ltac:(lia)) as (p & x & Hx & -> & _ & _).
        rewrite glob_eq in Hj by assumption.
        assert (Hp : p < k) by (apply Hk; lia).
        destruct (PG p Hp) as [_ E2]. exists p; eexists; eexists; split; [exact Hp|].
        split; [exact E2|]. unfold csize. lia.
    - intros sb H p. unfold patch_global_dom, patch_local_dom, subblock_size. replace (sb <? N) with false by (symmetry; apply Nat.ltb_ge; lia). auto.
    - intros i Hi. 
      destruct (dm i C ltac:(lia)) as (c & x & Hx & Ei & _ & _).
      destruct (dm c N ltac:(lia)) as (p & sb & Hs & Ec & _ & _).
      assert (Eg : i = glob sb (p * C + x)) by (rewrite glob_eq by assumption; subst; lia).
      destruct (cyclic_from i sb (p * C + x) Hs Eg) as (A & B & _).
      destruct (seg_size_spec sb Hs) as (s & Es & Hss).
      exists sb, (p * C + x), s. split; [exact A|]. split; [exact Hs|]. split; [exact B|].
      split; [unfold subblock_size; lt_true; exact Es|].
      split; [apply Hss; lia|].
      unfold global_from_local_index. lt_true.
      rewrite cdiv_some, cmod_some by lia. cbn [bind]. f_equal. symmetry. exact Eg.
  Qed.
End Cyc.

Lemma dist_spec_all d n : dist_ok d = true -> dist_spec d n.
Proof.
  destruct d; cbn [dist_ok]; intros H.
  - apply whole_spec.
  - apply block_spec. apply Nat.ltb_lt; exact H.
  - apply andb_prop in H as [H1 H2]. apply Nat.ltb_lt in H1, H2. apply cyclic_spec; assumption.
Qed.

(** ** Consequences *)
Lemma NoDup_flat_map {A B} (f : A -> list B) l :
  NoDup l -> (forall a, In a l -> NoDup (f a)) ->
  (forall a b x, In a l -> In b l -> In x (f a) -> In x (f b) -> a = b) ->
  NoDup (flat_map f l).
Proof.
  induction l as [|a l IH]; cbn [flat_map]; intros N F D; [constructor|].
  inversion N as [|? ? Na Nl]; subst.
  assert (Q : forall (x y : list B), NoDup x -> NoDup y ->
            (forall z, In z x -> ~ In z y) -> NoDup (x ++ y)).
  { induction x as [|z x IHx]; simpl; intros y Nx Ny H; [exact Ny|].
    inversion Nx; subst. constructor.
    - rewrite in_app_iff. intros [X|X]; [contradiction|]. apply (H z); auto.
    - apply IHx; auto. }
  apply Q.
  - apply F; left; reflexivity.
  - apply IH; auto.
    + intros; apply F; right; assumption.
    + intros; eapply D; eauto; right; assumption.
  - intros z Hz Hz'. apply in_flat_map in Hz' as (b & Ib & Zb).
    assert (a = b) by (eapply D; eauto; simpl; auto). subst; contradiction.
Qed.

Lemma list_sum_flat_length {A B} (f : A -> list B) l :
  length (flat_map f l) = list_sum (map (fun a => length (f a)) l).
Proof. induction l; simpl; [reflexivity|]. rewrite app_length, IHl. reflexivity. Qed.

Lemma partitioned_of_spec d n : dist_spec d n -> partitioned d n.
Proof.
  intros (HA & HB & HC).
  (* a global patch contains i: then i is the image of a local index *)
  assert (InP : forall sb p i, in_patch d n sb p i ->
    sb < num_subblocks d /\ exists j s k, subblock_size d n sb = Some s /\
      subblock_patches d n sb = Some k /\ p < k /\ j < s /\
      global_from_local_index d n sb j = Some i /\ patch_from_index d n i = Some p).
  { intros sb p i (f & l & E & Hi).
    destruct (le_lt_dec (num_subblocks d) sb) as [L|L].
    { destruct (HB sb L p) as (X & _). congruence. }
    split; [exact L|]. destruct (HA sb L) as (s & k & Es & Ek & _ & HP & HN & _).
    destruct (le_lt_dec k p) as [L'|L'].
    { destruct (HN p L') as (X & _). congruence. }
    destruct (HP p L') as (f' & lf & l' & E1 & E2 & Hx). rewrite E in E1. injection E1 as <- <-.
    destruct (Hx (i - f) ltac:(lia)) as (X1 & X2 & X3).
    replace (f + (i - f)) with i in * by lia.
    exists (lf + (i - f)), s, k. auto 10. }
  assert (Sz : forall sb s, subblock_size d n sb = Some s -> sb < num_subblocks d).
  { intros sb s E. destruct (le_lt_dec (num_subblocks d) sb) as [L|L]; [|exact L].
    destruct (HB sb L 0) as (_ & _ & X). congruence. }
  assert (BT : forall sb s j, subblock_size d n sb = Some s -> j < s ->
     exists g, global_from_local_index d n sb j = Some g /\ g < n /\
       subblock_from_index d n g = Some sb /\ local_from_global_index d n g = Some j).
  { intros sb s j Es Hj. destruct (HA sb (Sz _ _ Es)) as (s' & k & Es' & _ & H1 & _).
    rewrite Es in Es'. injection Es' as <-. apply H1; exact Hj. }
  assert (Perm : Permutation (flat_map (held d n) (seq 0 (num_subblocks d))) (seq 0 n)).
  { apply NoDup_Permutation.
    - apply NoDup_flat_map.
      + apply seq_NoDup.
      + intros sb Hsb. apply in_seq in Hsb. unfold held.
        destruct (HA sb ltac:(lia)) as (s & k & Es & _). rewrite Es. cbn [val].
        apply (NoDup_map_inv (fun g => val (local_from_global_index d n g))).
        rewrite map_map.
        rewrite (map_ext_in _ (fun j => j)); [rewrite map_id; apply seq_NoDup|].
        intros j Hj. apply in_seq in Hj.
        destruct (BT sb s j Es ltac:(lia)) as (g & E1 & _ & _ & E2). rewrite E1. cbn [val].
        rewrite E2. reflexivity.
      + intros a b x Ha Hb Xa Xb. apply in_seq in Ha, Hb. unfold held in *.
        destruct (HA a ltac:(lia)) as (s & k & Es & _).
        destruct (HA b ltac:(lia)) as (s' & k' & Es' & _).
        rewrite Es in Xa. rewrite Es' in Xb. cbn [val] in *.
        apply in_map_iff in Xa as (j & <- & Hj). apply in_map_iff in Xb as (j' & E & Hj').
        apply in_seq in Hj, Hj'.
        destruct (BT a s j Es ltac:(lia)) as (g & E1 & _ & E2 & _).
        destruct (BT b s' j' Es' ltac:(lia)) as (g' & E1' & _ & E2' & _).
        rewrite E1, E1' in E. cbn [val] in E. subst. congruence.
    - apply seq_NoDup.
    - intros x. rewrite in_flat_map. split.
      + intros (sb & Hsb & Hx). apply in_seq in Hsb. unfold held in Hx.
        destruct (HA sb ltac:(lia)) as (s & k & Es & _). rewrite Es in Hx. cbn [val] in Hx.
        apply in_map_iff in Hx as (j & <- & Hj). apply in_seq in Hj.
        destruct (BT sb s j Es ltac:(lia)) as (g & E1 & Hg & _). rewrite E1. cbn [val].
        apply in_seq; lia.
      + intros Hx. apply in_seq in Hx.
        destruct (HC x ltac:(lia)) as (sb & j & s & _ & Hsb & _ & Es & Hj & Eg).
        exists sb. split; [apply in_seq; lia|]. unfold held. rewrite Es. cbn [val].
        apply in_map_iff. exists j. rewrite Eg. split; [reflexivity|apply in_seq; lia]. }
  constructor.
  - intros i Hi. destruct (HC i Hi) as (sb & j & s & E1 & Hsb & E2 & Es & Hj & Eg).
    destruct (HA sb Hsb) as (s' & k & Es' & Ek & H1 & HP & HN & HD).
    rewrite Es in Es'. injection Es' as <-.
    destruct (HD j Hj) as (p & lf & l & Hp & El & Hjl).
    destruct (HP p Hp) as (f & lf' & l' & E3 & E4 & Hx). rewrite El in E4. injection E4 as <- <-.
    destruct (Hx (j - lf) ltac:(lia)) as (_ & E5 & E6).
    replace (lf + (j - lf)) with j in E5 by lia.
    assert (Ei : f + (j - lf) = i) by congruence.
    exists sb, p. split; [exact Hsb|]. split; [exists f, l; split; [exact E3|lia]|].
    split; [exact E1|]. split; [congruence|].
    intros sb' p' Hin. destruct (InP _ _ _ Hin) as (Hsb' & j' & s' & k' & Es' & _ & _ & Hj' & Eg' & Ep').
    destruct (BT sb' s' j' Es' Hj') as (g & Eg2 & _ & E7 & _). rewrite Eg' in Eg2. injection Eg2 as <-.
    split; congruence.
  - intros sb p i Hin. destruct (InP _ _ _ Hin) as (_ & j & s & k & Es & _ & _ & Hj & Eg & _).
    destruct (BT sb s j Es Hj) as (g & Eg2 & Hg & _). congruence.
  - intros i Hi. destruct (HC i Hi) as (sb & j & s & E1 & Hsb & E2 & Es & Hj & Eg).
    exists sb, j, s. auto.
  - exact BT.
  - intros sb s Es j. pose proof (Sz _ _ Es) as Hsb.
    destruct (HA sb Hsb) as (s' & k & Es' & Ek & H1 & HP & HN & HD).
    rewrite Es in Es'. injection Es' as <-.
    assert (L : forall p, in_local_patch d n sb p j -> j < s /\ p < k /\
       exists g, global_from_local_index d n sb j = Some g /\ patch_from_index d n g = Some p).
    { intros p (f & l & E & Hf). destruct (le_lt_dec k p) as [X|X].
      { destruct (HN p X). congruence. }
      destruct (HP p X) as (f' & lf & l' & E1 & E2 & Hx). rewrite E in E2. injection E2 as <- <-.
      destruct (Hx (j - f) ltac:(lia)) as (Y1 & Y2 & Y3).
      replace (f + (j - f)) with j in * by lia. eauto. }
    split; [split|].
    + intros Hj. destruct (HD j Hj) as (p & f & l & Hp & E & Hf). exists p, f, l. auto.
    + intros (p & Hp). apply (L p Hp).
    + intros p p' Hp Hp'. destruct (L p Hp) as (_ & _ & g & G1 & G2).
      destruct (L p' Hp') as (_ & _ & g' & G1' & G2'). congruence.
  - intros sb p f l E.
    destruct (le_lt_dec (num_subblocks d) sb) as [L|L].
    { destruct (HB sb L p) as (X & _). congruence. }
    destruct (HA sb L) as (s & k & Es & Ek & _ & HP & HN & _).
    destruct (le_lt_dec k p) as [L'|L'].
    { destruct (HN p L') as (X & _). congruence. }
    destruct (HP p L') as (f' & lf & l' & E1 & E2 & Hx). rewrite E in E1. injection E1 as <- <-.
    exists lf. split; [exact E2|]. intros x Hxl. apply Hx; exact Hxl.
  - intros sb. split.
    + intros Hsb. destruct (HA sb Hsb) as (s & k & Es & _). eauto.
    + intros (s & Es). eauto.
  - intros sb k Ek p. split.
    + intros Hp. destruct (le_lt_dec (num_subblocks d) sb) as [L|L].
      * exfalso. destruct d; cbn [subblock_patches num_subblocks] in Ek, L.
        -- destruct sb; [lia|discriminate].
        -- replace (sb <? num) with false in Ek by (symmetry; apply Nat.ltb_ge; lia). discriminate.
        -- replace (sb <? num) with false in Ek by (symmetry; apply Nat.ltb_ge; lia). discriminate.
      * destruct (HA sb L) as (s & k' & Es & Ek' & _ & HP & _). rewrite Ek in Ek'. injection Ek' as <-.
        destruct (HP p Hp) as (f & lf & l & E1 & _). eauto.
    + intros (fl & E). destruct (le_lt_dec (num_subblocks d) sb) as [L|L].
      { destruct (HB sb L p) as (X & _). congruence. }
      destruct (HA sb L) as (s & k' & Es & Ek' & _ & HP & HN & _). rewrite Ek in Ek'. injection Ek' as <-.
      destruct (le_lt_dec k p) as [X|X]; [|exact X]. destruct (HN p X). congruence.
  - exact Perm.
  - apply Permutation_length in Perm. rewrite seq_length, list_sum_flat_length in Perm.
    etransitivity; [|exact Perm]. f_equal. apply map_ext. intros sb. unfold held.
    rewrite map_length, seq_length. reflexivity.
Qed.

Lemma dist_partitioned d n : dist_ok d = true -> partitioned d n.
Proof. intros H. apply partitioned_of_spec, dist_spec_all, H. Qed.

(** ** Block distribution: contiguous, in order; balance *)
Lemma block_size_eq num n sb : 0 < num -> sb < num ->
  subblock_size (Block num) n sb = Some (n / num + (if sb <? n mod num then 1 else 0)) /\
  patch_global_dom (Block num) n sb 0 =
    Some (sb * (n / num) + Nat.min sb (n mod num), n / num + (if sb <? n mod num then 1 else 0)).
Proof.
  intros H Hs. unfold subblock_size, patch_global_dom, segment_size_block, segment_start.
  rewrite !cdiv_some, !cmod_some by lia. 
  replace (sb <? num) with true by (symmetry; apply Nat.ltb_lt; lia). auto.
Qed.

Lemma block_contiguous_lemma num n : 0 < num ->
  (forall sb f l, sb < num -> patch_global_dom (Block num) n sb 0 = Some (f, l) ->
     (sb = 0 -> f = 0) /\ (sb + 1 = num -> f + l = n) /\
     (sb + 1 < num -> exists l', patch_global_dom (Block num) n (sb + 1) 0 = Some (f + l, l'))).
Proof.
  intros H sb f l Hs E. destruct (block_size_eq num n sb H Hs) as [_ E'].
  rewrite E in E'. injection E' as -> ->.
  destruct (dm n num ltac:(lia)) as (q & r & Hr & En & Eq & Er). rewrite Eq, Er in *.
  split; [intros ->; lia|]. split.
  - intros X. subst num. destruct (Nat.ltb_spec sb r); [lia|].
    rewrite Nat.min_r by lia. lia.
  - intros X. destruct (block_size_eq num n (sb + 1) H X) as [_ E'].
    rewrite Eq, Er in E'. eexists. rewrite E'. f_equal. f_equal.
    destruct (Nat.ltb_spec sb r); lia.
Qed.

Lemma block_balanced_lemma num n sb sb' s s' : 
  subblock_size (Block num) n sb = Some s -> subblock_size (Block num) n sb' = Some s' ->
  s <= s' + 1.
Proof.
  intros E E'.
  assert (sb < num) by (unfold subblock_size in E; destruct (Nat.ltb_spec sb num); [assumption|discriminate]).
  assert (sb' < num) by (unfold subblock_size in E'; destruct (Nat.ltb_spec sb' num); [assumption|discriminate]).
  destruct (block_size_eq num n sb ltac:(lia) H) as [X _].
  destruct (block_size_eq num n sb' ltac:(lia) H0) as [X' _].
  rewrite E in X. rewrite E' in X'. injection X as ->. injection X' as ->.
  destruct (_ <? _), (_ <? _); lia.
Qed.

Lemma cyclic_balanced_lemma num c n sb sb' s s' : 0 < c ->
  subblock_size (Cyclic num c) n sb = Some s -> subblock_size (Cyclic num c) n sb' = Some s' ->
  s <= s' + c.
Proof.
  intros Hc E E'. unfold subblock_size in *.
  destruct (Nat.ltb_spec sb num) as [H|]; [|discriminate].
  destruct (Nat.ltb_spec sb' num) as [H'|]; [|discriminate].
  destruct (seg_size_spec n num c ltac:(lia) Hc sb H) as (t & Et & Ht).
  destruct (seg_size_spec n num c ltac:(lia) Hc sb' H') as (t' & Et' & Ht').
  rewrite E in Et. injection Et as <-. rewrite E' in Et'. injection Et' as <-.
  destruct (le_lt_dec s (s' + c)) as [X|X]; [exact X|exfalso].
  (* local index s' + c of sb exists, hence s' of sb' exists *)
  apply Ht in X. assert (Y : glob num c sb' s' < n).
  { eapply Nat.le_lt_trans; [|exact X]. unfold glob.
    replace (s' + c) with (s' + 1 * c) by lia. rewrite Nat.div_add, Nat.mod_add by lia.
    assert ((s' / c * num + sb') * c <= ((s' / c + 1) * num + sb) * c); [|lia].
    apply Nat.mul_le_mono_r. lia. }
  apply Ht' in Y. lia.
Qed.

Lemma cyclic_patch_size_lemma num c n sb p f l : 0 < c ->
  patch_global_dom (Cyclic num c) n sb p = Some (f, l) -> 0 < l <= c.
Proof.
  intros Hc E. unfold patch_global_dom in E.
  destruct (Nat.ltb_spec sb num) as [H|]; [|discriminate].
  destruct (chunks_spec n num c ltac:(lia) Hc sb H) as (k & Ek & Hk).
  unfold subblock_patches in E. replace (sb <? num) with true in E by (symmetry; apply Nat.ltb_lt; lia).
  rewrite Ek in E. cbn [bind] in E. destruct (Nat.ltb_spec p k) as [Hp|]; [|discriminate].
  apply Hk in Hp. rewrite (chunk_size_spec n num c ltac:(lia) Hc sb p H Hp) in E.
  cbn [bind] in E. injection E as _ <-. unfold csize. lia.
Qed.
