(** * Proofs about aligned allocation and the owning array *)

From Coq Require Import ZArith List Bool Lia.
Require Import Verif.Base Verif.Aligned.
Import ListNotations.
Local Open Scope Z_scope.

Lemma land_mask x k : 0 <= k <= 64 -> 0 <= x < W64 ->
  Z.land x (W64 - 2 ^ k) = x - x mod 2 ^ k.
Proof.
  intros Hk Hx.
  assert (P : 2 ^ 64 = 2 ^ (64 - k) * 2 ^ k) by (rewrite <- Z.pow_add_r; f_equal; lia).
  assert (Pk : 0 < 2 ^ k) by (apply Z.pow_pos_nonneg; lia).
  assert (M : W64 - 2 ^ k = Z.shiftl (Z.ones (64 - k)) k).
  { rewrite Z.shiftl_mul_pow2, Z.ones_equiv by lia. change W64 with (2 ^ 64). rewrite P.
    unfold Z.pred. ring. }
  rewrite M.
  assert (L : Z.land x (Z.shiftl (Z.ones (64 - k)) k)
              = Z.shiftl (Z.land (Z.shiftr x k) (Z.ones (64 - k))) k).
  { apply Z.bits_inj'. intros b Hb. rewrite Z.land_spec.
    destruct (Z_lt_le_dec b k) as [Lt|Ge].
    - rewrite !Z.shiftl_spec_low by lia. apply andb_false_r.
    - rewrite !Z.shiftl_spec by lia. rewrite Z.land_spec, Z.shiftr_spec by lia.
      replace (b - k + k) with b by lia. reflexivity. }
  rewrite L, Z.land_ones by lia. rewrite Z.shiftr_div_pow2 by lia.
  rewrite Z.mod_small.
  - rewrite Z.shiftl_mul_pow2 by lia. pose proof (Z.div_mod x (2 ^ k)). lia.
  - split; [apply Z.div_pos; lia|]. apply Z.div_lt_upper_bound; [lia|].
    rewrite Z.mul_comm, <- P. exact (proj2 Hx).
Qed.

Lemma aligned_ptr_spec k ptr size :
  3 <= k <= 63 -> 0 <= size -> 0 < ptr -> ptr mod 8 = 0 ->
  ptr + size + 2 ^ k < W64 ->
  let a := aligned_ptr (2 ^ k) ptr in
  a mod 2 ^ k = 0 /\ ptr <= slot (2 ^ k) ptr /\ slot (2 ^ k) ptr + 8 <= a /\
  slot (2 ^ k) ptr mod 8 = 0 /\
  a + size <= ptr + request (2 ^ k) size.
Proof.
  intros Hk Hs Hp Hm Hf a.
  assert (Pk : 0 < 2 ^ k) by (apply Z.pow_pos_nonneg; lia).
  assert (P8 : 2 ^ k = 8 * 2 ^ (k - 3)).
  { change 8 with (2 ^ 3). rewrite <- Z.pow_add_r by lia. f_equal. lia. }
  assert (Pj : 0 < 2 ^ (k - 3)) by (apply Z.pow_pos_nonneg; lia).
  assert (E : a = ptr + 2 ^ k - (ptr + 2 ^ k) mod 2 ^ k).
  { unfold a, aligned_ptr, u64. rewrite !Z.mod_small by lia.
    replace (W64 - 1 - (2 ^ k - 1)) with (W64 - 2 ^ k) by lia. apply land_mask; lia. }
  assert (R : (ptr + 2 ^ k) mod 2 ^ k = ptr mod 2 ^ k).
  { rewrite <- (Z.mul_1_l (2 ^ k)) at 1. apply Z.mod_add. lia. }
  rewrite R in E.
  pose proof (Z.mod_pos_bound ptr (2 ^ k) Pk) as B.
  assert (D : ptr mod 2 ^ k <= 2 ^ k - 8 /\ (ptr mod 2 ^ k) mod 8 = 0).
  { assert (Q : (ptr mod 2 ^ k) mod 8 = 0).
    { rewrite P8 in *. rewrite Z.rem_mul_r by lia. rewrite Hm, Z.add_0_l.
      rewrite Z.mul_comm. apply Z.mod_mul. lia. }
    split; [|exact Q]. clear E R. set (y := ptr mod 2 ^ k) in *.
    rewrite P8 in *. Z.to_euclidean_division_equations; lia. }
  destruct D as [D1 D2].
  assert (A : a mod 2 ^ k = 0).
  { rewrite E. pose proof (Z.div_mod ptr (2 ^ k)).
    replace (ptr + 2 ^ k - ptr mod 2 ^ k) with ((ptr / 2 ^ k + 1) * 2 ^ k) by lia. apply Z.mod_mul. lia. }
  split; [exact A|]. unfold slot. fold a. unfold request, u64. rewrite (Z.mod_small (size + 2 ^ k) W64) by lia.
  split; [lia|]. split; [lia|]. split; [|lia].
  rewrite E. clear A E R. set (y := ptr mod 2 ^ k) in *. rewrite P8.
  replace (ptr + 8 * 2 ^ (k - 3) - y - 8) with (ptr - y + (2 ^ (k - 3) - 1) * 8) by lia.
  rewrite Z.mod_add by lia. Z.to_euclidean_division_equations; lia.
Qed.

(** ** Ownership *)

Lemma oset_eq o i v : oset o i v i = v.
Proof. unfold oset. rewrite Nat.eqb_refl. reflexivity. Qed.

Lemma oset_ne o i v j : j <> i -> oset o i v j = o j.
Proof. intros H. unfold oset. apply Nat.eqb_neq in H. rewrite H. reflexivity. Qed.

Lemma heap_unique (h : heap) p n m :
  NoDup (map fst h) -> In (p, n) h -> In (p, m) h -> n = m.
Proof.
  induction h as [|[q k] t IH]; intros N H1 H2; [destruct H1|].
  cbn [map fst] in N. inversion N as [|x l Nx Nt]; subst.
  destruct H1 as [E1|H1], H2 as [E2|H2].
  - congruence.
  - injection E1 as -> ->. exfalso. apply Nx. apply (in_map fst) in H2. exact H2.
  - injection E2 as -> ->. exfalso. apply Nx. apply (in_map fst) in H1. exact H1.
  - apply IH; auto.
Qed.

Lemma free_align_in h p n :
  In (p, n) h -> p <> 0 -> free_align h p = Some (filter (fun c => negb (fst c =? p)) h).
Proof.
  intros H N. unfold free_align. rewrite (proj2 (Z.eqb_neq p 0) N).
  assert (E : existsb (fun c => fst c =? p) h = true).
  { apply existsb_exists. exists (p, n). split; [exact H|]. apply Z.eqb_refl. }
  rewrite E. reflexivity.
Qed.

Lemma in_filter_heap (h : heap) p c :
  In c (filter (fun c => negb (fst c =? p)) h) <-> In c h /\ fst c <> p.
Proof.
  rewrite filter_In. split; intros [H1 H2]; split; auto.
  - apply negb_true_iff, Z.eqb_neq in H2. exact H2.
  - apply negb_true_iff, Z.eqb_neq. exact H2.
Qed.

Lemma NoDup_filter_heap (h : heap) f : NoDup (map fst h) -> NoDup (map fst (filter f h)).
Proof.
  induction h as [|[q k] t IH]; intros N; [constructor|].
  cbn [map fst] in N. inversion N as [|x l Nx Nt]; subst. cbn [filter].
  destruct (f (q, k)); [|auto]. cbn [map fst]. constructor; [|auto].
  intros Hin. apply Nx. apply in_map_iff in Hin. destruct Hin as (c & E & Hc).
  apply filter_In in Hc. rewrite <- E. apply in_map. tauto.
Qed.

(** Transfer of the contents of [j] to the name [i] (which is null, or new). *)
Lemma owned_move o h i j p n :
  i <> j -> (forall q m, o i = Some (q, m) -> q = 0 /\ m = 0) ->
  o j = Some (p, n) ->
  owned_once (Arrays o h) ->
  owned_once (Arrays (oset (oset o j (Some (0, 0))) i (Some (p, n))) h).
Proof.
  intros Nij Hi Hj (O1 & O2 & O3). cbn [a_objs a_heap] in *.
  split; [exact O1|]. cbn [a_objs a_heap]. split.
  - intros q m Hin. destruct (O2 q m Hin) as [Nq (k & Ek & Uk)]. split; [exact Nq|].
    destruct (Nat.eq_dec k j) as [->|Nkj].
    + exists i. rewrite oset_eq. split; [congruence|].
      intros j' m' E. destruct (Nat.eq_dec j' i) as [|N1]; [assumption|].
      rewrite oset_ne in E by exact N1.
      destruct (Nat.eq_dec j' j) as [->|N2]; [rewrite oset_eq in E; exfalso; apply Nq; congruence|].
      rewrite oset_ne in E by exact N2. exfalso. apply N2. apply (Uk j' m' E).
    + assert (Nki : k <> i).
      { intros ->. destruct (Hi _ _ Ek) as [-> _]. contradiction. }
      exists k. rewrite oset_ne, oset_ne by auto. split; [exact Ek|].
      intros j' m' E. destruct (Nat.eq_dec j' i) as [->|N1].
      * rewrite oset_eq in E. injection E as E1 E2. subst q m'. exfalso. apply Nkj. symmetry. apply (Uk j n Hj).
      * rewrite oset_ne in E by exact N1.
        destruct (Nat.eq_dec j' j) as [->|N2]; [rewrite oset_eq in E; exfalso; apply Nq; congruence|].
        rewrite oset_ne in E by exact N2. apply (Uk j' m' E).
  - intros k q m E. destruct (Nat.eq_dec k i) as [->|N1].
    + rewrite oset_eq in E. injection E as <- <-. apply (O3 j p n Hj).
    + rewrite oset_ne in E by exact N1. destruct (Nat.eq_dec k j) as [->|N2].
      * rewrite oset_eq in E. injection E as <- <-. left; auto.
      * rewrite oset_ne in E by exact N2. apply (O3 k q m E).
Qed.

(** Freeing what [i] owns and making it null (or removing it). *)
Lemma owned_free o h i p n v :
  o i = Some (p, n) -> (v = None \/ v = Some (0, 0)) ->
  owned_once (Arrays o h) ->
  exists h', free_align h p = Some h' /\ owned_once (Arrays (oset o i v) h').
Proof.
  intros Hi Hv (O1 & O2 & O3). cbn [a_objs a_heap] in *.
  assert (KEY : forall k q m, oset o i v k = Some (q, m) -> (q = 0 /\ m = 0) \/ (k <> i /\ o k = Some (q, m))).
  { intros k q m E. destruct (Nat.eq_dec k i) as [->|N1].
    - rewrite oset_eq in E. destruct Hv as [-> | ->]; [discriminate E|]. injection E as <- <-. left; auto.
    - rewrite oset_ne in E by exact N1. right; auto. }
  destruct (Z.eq_dec p 0) as [->|Np].
  - exists h. split; [reflexivity|]. split; [exact O1|]. cbn [a_objs a_heap]. split.
    + intros q m Hin. destruct (O2 q m Hin) as [Nq (k & Ek & Uk)]. split; [exact Nq|].
      assert (Nki : k <> i) by (intros ->; congruence).
      exists k. rewrite oset_ne by exact Nki. split; [exact Ek|].
      intros j m' E. destruct (KEY _ _ _ E) as [[-> _]|[_ E']]; [contradiction|]. apply (Uk _ _ E').
    + intros k q m E. destruct (KEY _ _ _ E) as [?|[_ E']]; [left; assumption|]. apply (O3 _ _ _ E').
  - destruct (O3 _ _ _ Hi) as [[? _]|Hin]; [contradiction|].
    exists (filter (fun c => negb (fst c =? p)) h). split; [apply (free_align_in h p n); auto|].
    split; [apply NoDup_filter_heap; exact O1|]. cbn [a_objs a_heap]. split.
    + intros q m Hq. apply in_filter_heap in Hq. destruct Hq as [Hq Nqp]. cbn [fst] in Nqp.
      destruct (O2 q m Hq) as [Nq (k & Ek & Uk)]. split; [exact Nq|].
      assert (Nki : k <> i) by (intros ->; congruence).
      exists k. rewrite oset_ne by exact Nki. split; [exact Ek|].
      intros j m' E. destruct (KEY _ _ _ E) as [[-> _]|[_ E']]; [contradiction|]. apply (Uk _ _ E').
    + intros k q m E. destruct (KEY _ _ _ E) as [?|[Nk E']]; [left; assumption|].
      destruct (O3 _ _ _ E') as [?|Hq]; [left; assumption|].
      right. apply in_filter_heap. split; [exact Hq|]. cbn [fst]. intros ->.
      destruct (O2 _ _ Hin) as [_ (z & Ez & Uz)].
      apply Nk. rewrite (Uz k m E'). symmetry. apply (Uz i n Hi).
Qed.

Lemma owned_ext o o' h : (forall i, o i = o' i) -> owned_once (Arrays o h) -> owned_once (Arrays o' h).
Proof.
  intros H (O1 & O2 & O3). cbn [a_objs a_heap] in *. split; [exact O1|]. cbn [a_objs a_heap]. split.
  - intros p n Hin. destruct (O2 p n Hin) as [N (i & Ei & Ui)]. split; [exact N|]. exists i.
    rewrite <- H. split; [exact Ei|]. intros j m E. apply (Ui j m). rewrite H. exact E.
  - intros i p n E. apply (O3 i). rewrite H. exact E.
Qed.

Lemma aop_step s o :
  owned_once s -> aop_legal s o -> exists s', run_aop s o = Some s' /\ owned_once s'.
Proof.
  destruct s as [ob h]. intros O L. pose proof O as (O1 & O2 & O3). cbn [a_objs a_heap] in *.
  destruct o as [i|i n p|i j|i j|i j|i j|i]; cbn [aop_legal run_aop a_objs a_heap] in *.
  - (* Default *)
    eexists. split; [reflexivity|].
    split; [exact O1|]. cbn [a_objs a_heap]. split.
    + intros q m Hin. destruct (O2 q m Hin) as [Nq (k & Ek & Uk)]. split; [exact Nq|].
      assert (Nki : k <> i) by (intros ->; congruence).
      exists k. rewrite oset_ne by exact Nki. split; [exact Ek|]. intros j m' E.
      destruct (Nat.eq_dec j i) as [->|N1].
      * rewrite oset_eq in E. exfalso; apply Nq; congruence.
      * rewrite oset_ne in E by exact N1. apply (Uk _ _ E).
    + intros k q m E. destruct (Nat.eq_dec k i) as [->|N1].
      * rewrite oset_eq in E. injection E as <- <-. left; auto.
      * rewrite oset_ne in E by exact N1. apply (O3 _ _ _ E).
  - (* New *)
    destruct L as (Li & Ln & Lp & Lq). eexists. split; [reflexivity|].
    destruct (p =? 0) eqn:Ep.
    + apply Z.eqb_eq in Ep. subst p. rewrite (Lp eq_refl) in *.
      split; [exact O1|]. cbn [a_objs a_heap]. split.
      * intros q m Hin. destruct (O2 q m Hin) as [Nq (k & Ek & Uk)]. split; [exact Nq|].
        assert (Nki : k <> i) by (intros ->; congruence).
        exists k. rewrite oset_ne by exact Nki. split; [exact Ek|]. intros j m' E.
        destruct (Nat.eq_dec j i) as [->|N1].
        -- rewrite oset_eq in E. exfalso; apply Nq; congruence.
        -- rewrite oset_ne in E by exact N1. apply (Uk _ _ E).
      * intros k q m E. destruct (Nat.eq_dec k i) as [->|N1].
        -- rewrite oset_eq in E. injection E as <- <-. left; auto.
        -- rewrite oset_ne in E by exact N1. apply (O3 _ _ _ E).
    + apply Z.eqb_neq in Ep. specialize (Lq Ep).
      split; [cbn [a_heap map fst]; constructor; auto|]. cbn [a_objs a_heap]. split.
      * intros q m [E|Hin].
        -- injection E as <- <-. split; [exact Ep|]. exists i. rewrite oset_eq. split; [reflexivity|].
           intros j m' E. destruct (Nat.eq_dec j i) as [|N1]; [assumption|].
           rewrite oset_ne in E by exact N1. destruct (O3 _ _ _ E) as [[? _]|Hin]; [contradiction|].
           exfalso. apply Lq. apply (in_map fst) in Hin. exact Hin.
        -- destruct (O2 q m Hin) as [Nq (k & Ek & Uk)]. split; [exact Nq|].
           assert (Nki : k <> i) by (intros ->; congruence).
           exists k. rewrite oset_ne by exact Nki. split; [exact Ek|]. intros j m' E.
           destruct (Nat.eq_dec j i) as [->|N1].
           ++ rewrite oset_eq in E. injection E as <- <-. exfalso. apply Lq.
              apply (in_map fst) in Hin. exact Hin.
           ++ rewrite oset_ne in E by exact N1. apply (Uk _ _ E).
      * intros k q m E. destruct (Nat.eq_dec k i) as [->|N1].
        -- rewrite oset_eq in E. injection E as <- <-. right. left. reflexivity.
        -- rewrite oset_ne in E by exact N1. destruct (O3 _ _ _ E); [left|right; right]; assumption.
  - (* Copy *)
    destruct L as [Li Lj]. destruct (ob j) as [[p n]|] eqn:Ej; [|congruence].
    assert (Nij : j <> i) by (intros ->; congruence).
    unfold release. cbn [a_objs a_heap]. rewrite oset_ne by exact Nij. rewrite Ej. cbn [bind snd].
    eexists. split; [reflexivity|].
    apply (owned_ext (oset (oset ob j (Some (0, 0))) i (Some (p, n)))).
    + intros k. unfold oset. destruct (Nat.eqb k i) eqn:E1, (Nat.eqb k j) eqn:E2; auto.
      apply Nat.eqb_eq in E1, E2. congruence.
    + apply owned_move; auto. intros q m E. congruence.
  - (* CopyRef *)
    destruct L as [Li Lj]. destruct (ob j) as [[p n]|] eqn:Ej; [|congruence].
    assert (Nij : j <> i) by (intros ->; congruence).
    unfold release. cbn [a_objs a_heap]. rewrite Ej. cbn [bind a_objs a_heap].
    eexists. split; [reflexivity|]. apply owned_move; auto. intros q m E. congruence.
  - (* Assign *)
    destruct L as [Li Lj]. destruct (ob j) as [[p n]|] eqn:Ej; [|congruence].
    unfold release. cbn [a_objs a_heap]. rewrite Ej. cbn [bind].
    unfold reset. cbn [a_objs a_heap].
    destruct (Nat.eq_dec i j) as [->|Nij].
    + rewrite oset_eq. destruct (p =? 0) eqn:Ep.
      * cbn [bind a_objs a_heap]. rewrite oset_eq. eexists. split; [reflexivity|].
        apply Z.eqb_eq in Ep. subst p.
        apply (owned_ext ob); [|exact O]. intros k. unfold oset.
        destruct (Nat.eqb k j) eqn:E; [|reflexivity]. apply Nat.eqb_eq in E. subst k. exact Ej.
      * cbn [free_align Z.eqb bind]. cbn [bind a_objs a_heap]. rewrite oset_eq. eexists. split; [reflexivity|].
        apply (owned_ext ob); [|exact O]. intros k. unfold oset.
        destruct (Nat.eqb k j) eqn:E; [|reflexivity]. apply Nat.eqb_eq in E. subst k. exact Ej.
    + rewrite oset_ne by exact Nij. destruct (ob i) as [[d k]|] eqn:Ei; [|congruence].
      destruct (p =? d) eqn:Epd.
      * apply Z.eqb_eq in Epd. subst d. cbn [bind a_objs a_heap]. rewrite oset_ne by exact Nij.
        rewrite Ei. eexists. split; [reflexivity|].
        assert (P0 : p = 0).
        { destruct (O3 _ _ _ Ej) as [[? _]|Hin]; [assumption|].
          destruct (O2 _ _ Hin) as [_ (z & Ez & Uz)]. exfalso. apply Nij.
          rewrite (Uz i k Ei). symmetry. apply (Uz j n Ej). }
        subst p. apply owned_move; auto. intros q m E. rewrite Ei in E. injection E as <- <-.
        destruct (O3 _ _ _ Ei) as [?|Hin]; [assumption|]. destruct (O2 _ _ Hin) as [N _]. contradiction.
      * destruct (owned_free ob h i d k (Some (0, 0)) Ei (or_intror eq_refl) O) as (h' & Fh & O').
        rewrite Fh. cbn [bind a_objs a_heap]. rewrite oset_eq. eexists. split; [reflexivity|].
        apply (owned_ext (oset (oset (oset ob i (Some (0, 0))) j (Some (0, 0))) i (Some (p, n)))).
        -- intros z. unfold oset. destruct (Nat.eqb z i); reflexivity.
        -- apply owned_move; auto.
           ++ intros q m E. rewrite oset_eq in E. injection E as <- <-. auto.
           ++ rewrite oset_ne by auto. exact Ej.
  - (* AssignRef *)
    destruct L as [Li Lj]. destruct (ob j) as [[p n]|] eqn:Ej; [|congruence].
    unfold release. cbn [a_objs a_heap]. rewrite Ej. cbn [bind].
    unfold reset. cbn [a_objs a_heap].
    destruct (Nat.eq_dec i j) as [->|Nij].
    + rewrite oset_eq. destruct (p =? 0) eqn:Ep.
      * eexists. split; [reflexivity|]. apply Z.eqb_eq in Ep. subst p.
        assert (n = 0).
        { destruct (O3 _ _ _ Ej) as [[_ ?]|Hin]; [assumption|]. destruct (O2 _ _ Hin) as [N _]. contradiction. }
        subst n. apply (owned_ext ob); [|exact O]. intros k. unfold oset.
        destruct (Nat.eqb k j) eqn:E; [|reflexivity]. apply Nat.eqb_eq in E. subst k. exact Ej.
      * cbn [free_align Z.eqb bind]. eexists. split; [reflexivity|].
        apply (owned_ext ob); [|exact O]. intros k. unfold oset.
        destruct (Nat.eqb k j) eqn:E; [|reflexivity]. apply Nat.eqb_eq in E. subst k. exact Ej.
    + rewrite oset_ne by exact Nij. destruct (ob i) as [[d k]|] eqn:Ei; [|congruence].
      destruct (p =? d) eqn:Epd.
      * apply Z.eqb_eq in Epd. subst d. eexists. split; [reflexivity|].
        assert (P0 : p = 0).
        { destruct (O3 _ _ _ Ej) as [[? _]|Hin]; [assumption|].
          destruct (O2 _ _ Hin) as [_ (z & Ez & Uz)]. exfalso. apply Nij.
          rewrite (Uz i k Ei). symmetry. apply (Uz j n Ej). }
        subst p.
        assert (N0 : n = 0).
        { destruct (O3 _ _ _ Ej) as [[_ ?]|Hin]; [assumption|]. destruct (O2 _ _ Hin) as [N _]. contradiction. }
        subst n. apply (owned_ext ob); [|exact O]. intros z. unfold oset.
        destruct (Nat.eqb z j) eqn:E; [|reflexivity]. apply Nat.eqb_eq in E. subst z. exact Ej.
      * destruct (owned_free ob h i d k (Some (0, 0)) Ei (or_intror eq_refl) O) as (h' & Fh & O').
        rewrite Fh. cbn [bind]. eexists. split; [reflexivity|].
        apply (owned_ext (oset (oset (oset ob i (Some (0, 0))) j (Some (0, 0))) i (Some (p, n)))).
        -- intros z. unfold oset. destruct (Nat.eqb z i); reflexivity.
        -- apply owned_move; auto.
           ++ intros q m E. rewrite oset_eq in E. injection E as <- <-. auto.
           ++ rewrite oset_ne by auto. exact Ej.
  - (* Destroy *)
    destruct (ob i) as [[p n]|] eqn:Ei; [|congruence].
    destruct (owned_free ob h i p n None Ei (or_introl eq_refl) O) as (h' & Fh & O').
    rewrite Fh. cbn [bind]. eexists. split; [reflexivity|exact O'].
Qed.

Lemma array_history_owned s : array_history s -> owned_once s.
Proof.
  intros H. induction H as [|s o s' H IH L R].
  - split; [constructor|]. split; [intros p n []|intros i p n E; discriminate E].
  - destruct (aop_step _ _ IH L) as (s1 & R1 & O1). rewrite R1 in R. injection R as <-. exact O1.
Qed.
