(** Proofs about TransMap.v. *)
From Coq Require Import List Arith Lia Bool.
From Verif Require Import Base Dist Traversal Map MapProofs TransMap.
Import ListNotations.

Lemma exchanged_rev {A} (l : list A) : length l = 2 -> exchanged l = Some (rev l).
Proof. destruct l as [|a [|b [|c l]]]; try discriminate. reflexivity. Qed.

Lemma rev_len2 {A} (l : list A) : length l = 2 -> length (rev l) = 2.
Proof. now rewrite rev_length. Qed.

Lemma F2_rev {A B} (R : A -> B -> Prop) : forall a b, length b = 2 ->
  (Forall2 R a b <-> Forall2 R (rev a) (rev b)).
Proof.
  intros a [|x [|y [|z b]]]; try discriminate. intros _. cbn [rev app]. split; intros H.
  - inversion H; subst. inversion H4; subst. inversion H6; subst. cbn. repeat constructor; auto.
  - rewrite <- (rev_involutive a). inversion H as [|p ? q ? HP H1 E1 E2]; subst.
    inversion H1 as [|s ? t ? HS H2 E3 E4]; subst. inversion H2; subst. cbn. repeat constructor; auto.
Qed.

Lemma F2_len2 {A B} (R : A -> B -> Prop) a b : Forall2 R a b -> length b = 2 -> length a = 2.
Proof. intros H L. rewrite (F2_len _ _ _ H). exact L. Qed.

Lemma domain_nth_rev dom x : length dom = 2 -> length x = 2 ->
  domain_nth (rev dom) (rev x) = rev (domain_nth dom x).
Proof.
  destruct dom as [|a [|b [|c l]]]; try discriminate. destruct x as [|p [|q [|s x]]]; try discriminate.
  reflexivity.
Qed.

Lemma domain_nth_len dom x : length (domain_nth dom x) = min (length dom) (length x).
Proof. unfold domain_nth. rewrite map_length, combine_length. reflexivity. Qed.

Section Fixed.
Variables (u : umap) (r c : nat) (m : dims).
Hypothesis Hb : built u.
Hypothesis Nd : NoDup (u_pvec u).
Hypothesis Ea : apply_map u [r; c] = Some m.

Let tg := transpose_map (of_map m (u_pvec u)).

Lemma m_shape : exists d0 d1, m = [(d0, r); (d1, c)].
Proof.
  unfold apply_map in Ea. destruct (u_d u) as [|d0 [|d1 ds]]; try discriminate.
  cbn [length Nat.leb skipn] in Ea. destruct (forallb _ _); [|discriminate].
  injection Ea as <-. exists d0, d1. destruct ds; reflexivity.
Qed.

Lemma m_len : length m = 2.
Proof. destruct m_shape as (d0 & d1 & ->). reflexivity. Qed.
Lemma m_ext : ext_of m = [r; c].
Proof. destruct m_shape as (d0 & d1 & ->). reflexivity. Qed.

Lemma m_ok : map_ok m.
Proof.
  destruct Hb as [F _]. destruct (apply_num u [r; c] m Ea) as [-> _].
  unfold map_ok. clear -F. revert F. generalize [r; c]. generalize (u_d u). 
  induction l as [|d l IH]; intros [|n lens] F; cbn; constructor; inversion F; subst; auto.
Qed.

Lemma m_pvec : map_pvec m (u_pvec u) = Some (u_pvec u).
Proof.
  destruct Hb as [_ L]. destruct (apply_num u [r; c] m Ea) as [_ E]. unfold map_pvec.
  rewrite E, <- L, Nat.leb_refl. cbn. now rewrite firstn_all.
Qed.

Let MP := map_partitioned_lemma m m_ok.

Lemma owner pr sb : map_subblock m (u_pvec u) pr = Some sb <->
     exists l, map_processors m (u_pvec u) sb = Some l /\ In pr l.
Proof. apply (map_owner_lemma m (u_pvec u) (u_pvec u) Nd m_pvec). Qed.

Lemma placed_iff g pr l : placed u [r; c] g pr l <->
  exists sb, map_subblock m (u_pvec u) pr = Some sb /\ map_subblock_from_global_index m g = Some sb /\
    map_local_from_global_index m g = Some l.
Proof.
  unfold placed. split.
  - intros (m' & sb & ps & E & H1 & H2 & H3 & H4). assert (m' = m) by congruence. subst m'.
    exists sb. split; [apply owner; eauto|auto].
  - intros (sb & H1 & H2 & H3). apply owner in H1 as (ps & H1 & H4). exists m, sb, ps. auto.
Qed.

(** Queries of the transposed map. *)
Lemma dom_len f sb p d : patch_dom f m sb p = Some d -> length d = 2.
Proof.
  intros E. destruct (patch_dom_inv f m sb p d m_ok E) as (sbs & ks & ps & H1 & H2 & H3 & -> & -> & H6).
  apply omap2_len in H6 as [_ H6]. rewrite H6, combine_len, m_len; [reflexivity|].
  apply F2_len in H1. rewrite H1. unfold subblocks. now rewrite map_length.
Qed.

Lemma dom_checks f sb p d : patch_dom f m sb p = Some d ->
  patch_checks (of_map m (u_pvec u)) (Some sb) p = Some tt.
Proof.
  unfold patch_dom, patch_checks. cbn [valid_sb g_subblocks g_patches of_map].
  destruct (sb <? map_num_subblocks m); cbn [bind]; [|discriminate].
  destruct (map_num_patches m sb); cbn [bind]; [|discriminate].
  destruct (p <? n); cbn [bind]; [reflexivity|discriminate].
Qed.

Lemma t_gdom sb p dom : g_gdom tg (Some sb) p = Some dom <->
  exists d, map_global_domain m sb p = Some d /\ dom = rev d.
Proof.
  cbn [tg transpose_map g_gdom of_map]. split.
  - intros E. destruct (patch_checks _ _ _); cbn [bind] in E; [|discriminate].
    destruct (map_global_domain m sb p) as [d|] eqn:Ed; cbn [bind] in E; [|discriminate].
    rewrite exchanged_rev in E by exact (dom_len _ _ _ _ Ed). injection E as <-. eauto.
  - intros (d & Ed & ->). fold (of_map m (u_pvec u)). rewrite (dom_checks _ _ _ _ Ed), Ed. cbn [bind].
    apply exchanged_rev, (dom_len _ _ _ _ Ed).
Qed.

Lemma t_ldom sb p dom : g_ldom tg (Some sb) p = Some dom <->
  exists d, map_local_domain m sb p = Some d /\ dom = rev d.
Proof.
  cbn [tg transpose_map g_ldom of_map]. split.
  - intros E. destruct (patch_checks _ _ _); cbn [bind] in E; [|discriminate].
    destruct (map_local_domain m sb p) as [d|] eqn:Ed; cbn [bind] in E; [|discriminate].
    rewrite exchanged_rev in E by exact (dom_len _ _ _ _ Ed). injection E as <-. eauto.
  - intros (d & Ed & ->). fold (of_map m (u_pvec u)). rewrite (dom_checks _ _ _ _ Ed), Ed. cbn [bind].
    apply exchanged_rev, (dom_len _ _ _ _ Ed).
Qed.

Lemma ext_len sb e : map_subblock_extent m sb = Some e -> length e = 2.
Proof.
  intros E. destruct (extent_inv m sb e E) as (sbs & H1 & H2). destruct H2 as [H2 H3].
  apply omap2_len in H3 as [_ H3]. rewrite H3. apply m_len.
Qed.

Lemma t_ext sb e : g_extent tg (Some sb) = Some e <->
  exists d, map_subblock_extent m sb = Some d /\ e = rev d.
Proof.
  cbn [tg transpose_map g_extent of_map valid_sb g_subblocks]. split.
  - intros E. destruct (sb <? _); cbn [bind] in E; [|discriminate].
    destruct (map_subblock_extent m sb) as [d|] eqn:Ed; cbn [bind] in E; [|discriminate].
    rewrite exchanged_rev in E by exact (ext_len _ _ Ed). injection E as <-. eauto.
  - intros (d & Ed & ->). assert (L : sb < map_num_subblocks m) by (apply (mp_defined m MP); eauto).
    apply Nat.ltb_lt in L. rewrite L. cbn [bind]. rewrite Ed. cbn [bind]. apply exchanged_rev, (ext_len _ _ Ed).
Qed.

Lemma t_holds sb p x : holds tg sb p x <-> in_map_patch m sb p (rev x).
Proof.
  unfold holds, in_map_patch. split.
  - intros (dom & E & H). apply t_gdom in E as (d & Ed & ->). exists d. split; [exact Ed|].
    unfold in_box in *. apply F2_rev; [exact (dom_len _ _ _ _ Ed)|]. now rewrite rev_involutive.
  - intros (d & Ed & H). exists (rev d). split; [apply t_gdom; eauto|].
    unfold in_box in *. apply F2_rev; [rewrite rev_length; exact (dom_len _ _ _ _ Ed)|].
    now rewrite rev_involutive.
Qed.

Lemma range_rc x : in_range (ext_of m) x <-> exists j i, x = [j; i] /\ j < r /\ i < c.
Proof.
  rewrite m_ext. unfold in_range. split.
  - intros H. inversion H as [|j ? l ? Hj H' E1 E2]; subst. inversion H' as [|i ? l' ? Hi H2 E1 E2]; subst.
    inversion H2; subst. eauto 6.
  - intros (j & i & -> & Hj & Hi). repeat constructor; auto.
Qed.

Theorem one_patch i j : i < c -> j < r -> exists sb p, holds tg sb p [i; j] /\
  (forall sb' p', holds tg sb' p' [i; j] -> sb' = sb /\ p' = p).
Proof.
  intros Hi Hj. destruct (mp_home m MP [j; i]) as (sb & p & l & ext & _ & _ & _ & H4 & H5 & _).
  { apply range_rc. eauto 6. }
  exists sb, p. split; [apply t_holds; exact H4|]. intros sb' p' H. apply H5. apply t_holds in H. exact H.
Qed.

Theorem inside sb p x : holds tg sb p x -> exists i j, x = [i; j] /\ i < c /\ j < r.
Proof.
  intros H. apply t_holds, (mp_inside m MP), range_rc in H as (j & i & E & Hj & Hi).
  exists i, j. split; [|auto]. rewrite <- (rev_involutive x), E. reflexivity.
Qed.

Theorem owners sb p x pr : holds tg sb p x ->
  (owns tg pr sb <-> exists l, placed u [r; c] (rev x) pr l).
Proof.
  intros H. apply t_holds in H. destruct (mp_home m MP (rev x) (mp_inside m MP _ _ _ H))
    as (sb' & p' & l & ext & H1 & _ & _ & H4 & H5 & H6 & _).
  destruct (H5 sb p H) as [-> ->]. unfold owns. cbn [tg transpose_map g_subblock of_map]. split.
  - intros E. exists l. apply placed_iff. exists sb'. auto.
  - intros (l' & E). apply placed_iff in E as (sb & E1 & E2 & _). congruence.
Qed.

Lemma placed_of_local sb ext l pr : map_subblock_extent m sb = Some ext -> in_range ext l ->
  map_subblock m (u_pvec u) pr = Some sb -> exists g,
    map_global_from_local_index m sb l = Some g /\ placed u [r; c] g pr l.
Proof.
  intros Ee Hl Ep. destruct (mp_back m MP sb ext l Ee Hl) as (g & G1 & _ & G2 & G3).
  exists g. split; [exact G1|]. apply placed_iff. exists sb. auto.
Qed.

Lemma local_patch_range sb p d x : map_local_domain m sb p = Some d -> in_range (map snd d) x ->
  exists ext, map_subblock_extent m sb = Some ext /\ in_range ext (domain_nth d x).
Proof.
  intros Ed Hx. assert (I : in_map_local_patch m sb p (domain_nth d x))
    by (exists d; split; [exact Ed|apply nth_in_box, Hx]).
  assert (L : sb < map_num_subblocks m).
  { destruct (patch_dom_inv _ m sb p d m_ok Ed) as (sbs & ks & ps & H1 & H2 & H3 & -> & _).
    unfold map_local_domain, patch_dom in Ed. destruct (Nat.ltb_spec (horner 0 (subblocks m) sbs) (map_num_subblocks m));
      [assumption|discriminate]. }
  destruct (proj1 (mp_defined m MP sb) L) as (ext & Ee). exists ext. split; [exact Ee|].
  apply (mp_local_tiles m MP sb ext Ee). eauto.
Qed.

Lemma range_rev (dom : list (nat * nat)) x : length dom = 2 -> in_range (map snd (rev dom)) x ->
  exists y, x = rev y /\ in_range (map snd dom) y /\ length y = 2.
Proof.
  intros L H. exists (rev x). rewrite rev_involutive. split; [reflexivity|].
  assert (H' : in_range (map snd dom) (rev x)).
  { unfold in_range in *. apply F2_rev; [now rewrite map_length|]. rewrite rev_involutive, <- map_rev. exact H. }
  split; [exact H'|]. apply F2_len in H'. now rewrite H', map_length.
Qed.

Theorem patches_match sb p gd : g_gdom tg (Some sb) p = Some gd ->
  exists ld, g_ldom tg (Some sb) p = Some ld /\ map snd ld = map snd gd /\
    forall x pr, in_range (map snd gd) x -> owns tg pr sb ->
      placed u [r; c] (rev (domain_nth gd x)) pr (rev (domain_nth ld x)).
Proof.
  intros E. apply t_gdom in E as (g & Eg & ->).
  destruct (mp_patch_match m MP sb p g Eg) as (d & Ed & Sn & G). exists (rev d).
  pose proof (dom_len _ _ _ _ Eg) as Lg. pose proof (dom_len _ _ _ _ Ed) as Ld.
  split; [apply t_ldom; eauto|]. split; [now rewrite !map_rev, Sn|]. intros x pr Hx Ho.
  destruct (range_rev g x Lg Hx) as (y & -> & Hy & Ly).
  rewrite !domain_nth_rev, !rev_involutive by assumption.
  assert (Hy' : in_range (map snd d) y) by (rewrite Sn; exact Hy).
  destruct (local_patch_range sb p d y Ed Hy') as (ext & Ee & Hr).
  destruct (placed_of_local sb ext _ pr Ee Hr Ho) as (g' & G' & P).
  rewrite (G y Hy) in G'. injection G' as <-. exact P.
Qed.

Lemma owns_lt pr sb : owns tg pr sb -> sb < map_num_subblocks m.
Proof.
  unfold owns. cbn [tg transpose_map g_subblock of_map]. unfold map_subblock.
  destruct (rank_from_proc _ _) as [k|]; [|discriminate].
  destruct (Nat.ltb_spec k (map_num_subblocks m)); [|discriminate]. intros [= <-]. assumption.
Qed.

Theorem extents pr sb : owns tg pr sb -> exists ext, g_extent tg (Some sb) = Some ext /\
  forall l, in_range ext l <-> exists g, placed u [r; c] g pr (rev l).
Proof.
  intros Ho. destruct (proj1 (mp_defined m MP sb) (owns_lt pr sb Ho)) as (e & Ee).
  pose proof (ext_len sb e Ee) as Le.
  exists (rev e). split; [apply t_ext; eauto|]. intros l. split.
  - intros H. assert (H' : in_range e (rev l)).
    { unfold in_range in *. apply F2_rev; [exact Le|]. rewrite rev_involutive. exact H. }
    destruct (placed_of_local sb e _ pr Ee H' Ho) as (g & _ & P). eauto.
  - intros (g & P). apply placed_iff in P as (sb' & E1 & E2 & E3). 
    assert (sb' = sb) by (unfold owns in Ho; cbn [tg transpose_map g_subblock of_map] in Ho; congruence). subst sb'.
    assert (Rg : in_range (ext_of m) g).
    { clear -E2. unfold map_subblock_from_global_index in E2. destruct (dim_subblocks m g) as [xs|] eqn:D; [|discriminate].
      clear E2. revert g xs D. unfold dim_subblocks, in_range, ext_of.
      induction m as [|d m' IH]; intros [|i g] xs; cbn [omap2 map]; try discriminate; intros D; constructor.
      - destruct (Nat.ltb_spec i (snd d)); [assumption|discriminate].
      - destruct (i <? snd d); cbn [bind] in D; [|discriminate].
        destruct (subblock_from_index _ _ _); cbn [bind] in D; [|discriminate].
        destruct (omap2 _ m' g) eqn:R; cbn [bind] in D; [|discriminate]. eapply IH, R. }
    destruct (mp_home m MP g Rg) as (sb' & p & l' & ext & H1 & _ & _ & _ & _ & H6 & H7 & H8 & _).
    assert (sb' = sb) by congruence. subst sb'. assert (ext = e) by congruence. subst ext.
    assert (l' = rev l) by congruence. subst l'. unfold in_range in *.
    apply F2_rev; [now rewrite rev_length|]. rewrite rev_involutive. exact H8.
Qed.

Theorem local_indices i j pr a b : placed u [r; c] [j; i] pr [b; a] ->
  g_local_index tg 0 i = Some a /\ g_local_index tg 1 j = Some b.
Proof.
  intros P. apply placed_iff in P as (sb & _ & _ & E). destruct m_shape as (d0 & d1 & Em). 
  cbn [tg transpose_map g_local_index of_map parent_dim].
  rewrite Em in *. unfold map_local_from_global_index in E. cbn [omap2 fst snd] in E.
  cbn [nth_error bind fst snd].
  destruct (local_from_global_index d0 r j) as [b'|]; cbn [bind] in E; [|discriminate].
  destruct (local_from_global_index d1 c i) as [a'|]; cbn [bind] in E; [|discriminate].
  injection E as <- <-. auto.
Qed.

(** foreach_point *)
Variable V : Type.
Variable f : V -> list nat -> list nat -> V.

Lemma list_eqb_spec a b : list_eqb a b = true <-> a = b.
Proof. split; [apply list_eqb_eq|intros ->; apply list_eqb_refl]. Qed.

Lemma visits_ok pts : forall b : lblock V, (forall l g, In (l, g) pts -> length l = 2) -> NoDup (map fst pts) ->
  exists b', visits V f b pts = Some b' /\
    (forall l g, In (l, g) pts -> b' (rev l) = f (b (rev l)) l g) /\
    (forall x, ~ In (rev x) (map fst pts) -> b' x = b x).
Proof.
  induction pts as [|[l g] pts IH]; intros b L N; cbn [visits].
  - exists b. split; [reflexivity|]. split; [intros ? ? []|reflexivity].
  - assert (Ll : length l = 2) by (eapply L; left; reflexivity).
    unfold visit, t_get, t_put, t_index. cbn [fst snd]. rewrite (exchanged_rev l Ll). cbn [bind].
    inversion N as [|? ? N1 N2]; subst.
    destruct (IH (lput V b (rev l) (f (b (rev l)) l g))) as (b' & E & H1 & H2).
    { intros; eapply L; right; eassumption. } { exact N2. }
    exists b'. split; [exact E|]. split.
    + intros l' g' [E'|Hin].
      * injection E' as <- <-. rewrite H2 by (rewrite rev_involutive; exact N1). unfold lput.
        now rewrite list_eqb_refl.
      * rewrite (H1 l' g' Hin). unfold lput. destruct (list_eqb (rev l') (rev l)) eqn:Q; [|reflexivity].
        apply list_eqb_spec in Q. apply (f_equal (@rev nat)) in Q. rewrite !rev_involutive in Q. subst l'.
        exfalso. apply N1. change l with (fst (l, g')). now apply in_map.
    + intros x Hx. cbn [map fst In] in Hx. rewrite H2 by tauto. unfold lput.
      destruct (list_eqb x (rev l)) eqn:Q; [|reflexivity]. apply list_eqb_spec in Q. subst x.
      rewrite rev_involutive in Hx. tauto.
Qed.

Lemma visits_app a : forall (b : lblock V) pts, visits V f b (a ++ pts) = (b' <- visits V f b a ;; visits V f b' pts).
Proof.
  induction a as [|x a IH]; intros b pts; [reflexivity|]. cbn [app visits].
  destruct (visit V f b x); cbn [bind]; [apply IH|reflexivity].
Qed.

Lemma t_patches_ok sb K : sb < map_num_subblocks m ->
  map_num_patches m sb = Some K -> forall k p, p + k = K ->
  exists pts n, (forall fuel, n <= fuel -> forall b, point_patches V fuel f tg (Some sb) b p k = visits V f b pts) /\
    NoDup (map fst pts) /\
    (forall l g, In (l, g) pts <-> exists q, p <= q /\ in_map_local_patch m sb q (rev l) /\
        map_global_from_local_index m sb (rev l) = Some (rev g)).
Proof.
  intros Hsb EK.
  destruct (mp_patches m MP sb Hsb) as (K' & EK' & HK). assert (K' = K) by congruence. subst K'. clear EK'.
  assert (LD : forall q l, in_map_local_patch m sb q l -> q < K).
  { intros q l H. destruct (in_local_patch_home m sb q l m_ok H) as (e & g & _ & _ & _ & (d & Hd & _)).
    apply HK. eauto. }
  induction k as [|k IH]; intros p Hp.
  - exists [], 0. split; [reflexivity|]. split; [constructor|]. intros l g. split; [intros []|].
    intros (q & Hq & H & _). apply LD in H. lia.
  - destruct (IH (p + 1) ltac:(lia)) as (pts & n & P1 & P2 & P3).
    destruct (proj1 (HK p) ltac:(lia)) as (gdom & Eg).
    destruct (mp_patch_match m MP sb p gdom Eg) as (ldom & El & Sn & G).
    pose proof (dom_len _ _ _ _ Eg) as Lg. pose proof (dom_len _ _ _ _ El) as Ld.
    destruct (patch_points_ok (rev ldom) (rev gdom)) as (pa & na & A1 & A2 & A3).
    { rewrite rev_length, Ld. lia. }
    { now rewrite !map_rev, Sn. }
    assert (Q : forall l g, In (l, g) pa <-> exists y, in_range (map snd ldom) y /\
                  rev l = domain_nth ldom y /\ rev g = domain_nth gdom y).
    { intros l g. rewrite A3. split.
      - intros (x & Hx & -> & ->). destruct (range_rev ldom x Ld Hx) as (y & -> & Hy & Ly).
        exists y. rewrite !domain_nth_rev, !rev_involutive by assumption. auto.
      - intros (y & Hy & E1 & E2). pose proof (F2_len _ _ _ Hy) as Ly. rewrite map_length, Ld in Ly.
        exists (rev y). rewrite !domain_nth_rev, <- E1, <- E2, !rev_involutive by assumption. split; [|auto].
        unfold in_range in *. rewrite map_rev. apply F2_rev; [now rewrite rev_length, map_length|].
        rewrite !rev_involutive. exact Hy. }
    exists (pa ++ pts), (Nat.max n na). split; [|split].
    + intros fuel Hf b. cbn [point_patches].
      rewrite (proj2 (t_ldom sb p (rev ldom)) (ex_intro _ ldom (conj El eq_refl))),
              (proj2 (t_gdom sb p (rev gdom)) (ex_intro _ gdom (conj Eg eq_refl))). cbn [bind].
      rewrite A1 by lia. cbn [bind]. rewrite visits_app.
      destruct (visits V f b pa); cbn [bind]; [|reflexivity]. apply P1. lia.
    + rewrite map_app. apply app_NoDup; auto. intros l H1 H2.
      rewrite in_map_iff in H1, H2. destruct H1 as ([l1 g1] & E1 & H1), H2 as ([l2 g2] & E2 & H2).
      cbn [fst] in *; subst l1 l2. apply Q in H1 as (x & Hx & El' & _).
      apply P3 in H2 as (q & Hq & Hin & _).
      assert (in_map_local_patch m sb p (rev l)) by (exists ldom; split; [exact El|rewrite El'; apply nth_in_box, Hx]).
      destruct (proj1 (mp_defined m MP sb) Hsb) as (ext & Ee).
      assert (p = q) by (eapply (mp_local_tiles m MP sb ext Ee (rev l)); eassumption). lia.
    + intros l g. rewrite in_app_iff, Q, P3. split.
      * intros [(x & Hx & E1 & E2)|(q & Hq & Hin & E)].
        -- exists p. split; [lia|]. rewrite E1, E2. split; [exists ldom; split; [exact El|apply nth_in_box, Hx]|].
           apply G. rewrite <- Sn. exact Hx.
        -- exists q. split; [lia|]. auto.
      * intros (q & Hq & Hin & E). destruct (Nat.eq_dec q p) as [->|Ne].
        -- left. destruct Hin as (d & Ed & Hd). assert (d = ldom) by congruence; subst d.
           destruct (in_box_nth _ _ Hd) as (x & Hx & Ex). exists x. split; [exact Hx|]. split; [exact Ex|].
           assert (map_global_from_local_index m sb (domain_nth ldom x) = Some (domain_nth gdom x))
             by (apply G; rewrite <- Sn; exact Hx). congruence.
        -- right. exists q. split; [lia|]. auto.
Qed.

Theorem foreach_point_ok pr (b : lblock V) : exists b' n,
  (forall fuel, n <= fuel -> foreach_point_t V fuel f tg pr b = Some b') /\
  (forall i j l, placed u [r; c] [j; i] pr l -> b' l = f (b l) (rev l) [i; j]) /\
  (forall l, ~ (exists g, placed u [r; c] g pr l) -> b' l = b l).
Proof.
  destruct (map_subblock m (u_pvec u) pr) as [sb|] eqn:Es.
  - assert (Ho : owns tg pr sb) by exact Es. pose proof (owns_lt pr sb Ho) as Hsb.
    destruct (mp_patches m MP sb Hsb) as (K & EK & HK).
    destruct (t_patches_ok sb K Hsb EK K 0 eq_refl) as (pts & n & P1 & P2 & P3).
    destruct (extents pr sb Ho) as (ext & Ee & HE). apply t_ext in Ee as (e & Ee & ->).
    pose proof (ext_len sb e Ee) as Le.
    assert (IN : forall l g, In (l, g) pts <-> placed u [r; c] (rev g) pr (rev l)).
    { intros l g. rewrite P3. split.
      - intros (q & _ & Hq & E). assert (Hr : in_range e (rev l)) by (apply (mp_local_tiles m MP sb e Ee); eauto).
        destruct (placed_of_local sb e _ pr Ee Hr Es) as (g' & G' & P). congruence.
      - intros P. assert (Hr : in_range e (rev l)).
        { assert (H : in_range (rev e) l) by (apply HE; eauto). unfold in_range in *. apply F2_rev; [exact Le|].
          rewrite rev_involutive. exact H. }
        pose proof (proj1 (proj1 (mp_local_tiles m MP sb e Ee (rev l))) Hr) as (q & Hq). exists q.
        split; [lia|]. split; [exact Hq|]. destruct (placed_of_local sb e _ pr Ee Hr Es) as (g' & G' & P').
        rewrite G'. f_equal. destruct (mp_back m MP sb e _ Ee Hr) as (g2 & G2 & R2 & S2 & L2).
        apply placed_iff in P as (s1 & A1 & A2 & A3). 
        assert (s1 = sb) by congruence. subst s1.
        assert (g' = g2) by congruence. subst g2.
        assert (Rg : in_range (ext_of m) (rev g)).
        { clear -A2. unfold map_subblock_from_global_index in A2. destruct (dim_subblocks m (rev g)) as [xs|] eqn:D; [|discriminate].
          clear A2. revert xs D. generalize (rev g). unfold dim_subblocks, in_range, ext_of.
          induction m as [|d m' IH]; intros [|i h] xs; cbn [omap2 map]; try discriminate; intros D; constructor.
          - destruct (Nat.ltb_spec i (snd d)); [assumption|discriminate].
          - destruct (i <? snd d); cbn [bind] in D; [|discriminate].
            destruct (subblock_from_index _ _ _); cbn [bind] in D; [|discriminate].
            destruct (omap2 _ m' h) eqn:R; cbn [bind] in D; [|discriminate]. eapply IH, R. }
        destruct (mp_home m MP (rev g) Rg) as (s3 & p3 & l3 & e3 & H1 & _ & _ & _ & _ & H6 & _ & _ & H9).
        assert (s3 = sb) by congruence. subst s3. assert (l3 = rev l) by congruence. subst l3. congruence. }
    destruct (visits_ok pts b) as (b' & E & V1 & V2).
    { intros l g Hin. apply P3 in Hin as (q & _ & (d & Ed & Hd) & _). apply F2_len in Hd.
      rewrite rev_length in Hd. rewrite Hd. exact (dom_len _ _ _ _ Ed). }
    { exact P2. }
    exists b', n. split; [|split].
    + intros fuel Hf. unfold foreach_point_t. cbn [tg transpose_map g_subblock g_patches of_map].
      rewrite Es. cbn [g_patches]. rewrite EK. cbn [bind]. change (point_patches V fuel f tg (Some sb) b 0 K = Some b').
      rewrite P1 by exact Hf. exact E.
    + intros i j l P. rewrite <- (rev_involutive l) at 1 2. apply V1. apply IN.
      rewrite rev_involutive. exact P.
    + intros l H. apply V2. intros Hin. apply in_map_iff in Hin as ([l1 g1] & E1 & Hin). cbn [fst] in E1.
      apply H. exists (rev g1). apply IN in Hin. rewrite E1, rev_involutive in Hin. exact Hin.
  - exists b, 0. split; [|split].
    + intros fuel _. unfold foreach_point_t. cbn [tg transpose_map g_subblock of_map]. now rewrite Es.
    + intros i j l P. apply placed_iff in P as (sb & E & _). congruence.
    + reflexivity.
Qed.

(** Transposing twice. *)
Lemma exchanged2 {A} (l : list A) : length l = 2 -> exchanged (rev l) = Some l.
Proof. intros H. rewrite exchanged_rev by now rewrite rev_length. now rewrite rev_involutive. Qed.

Theorem twice sb p d i : sb < g_subblocks tg ->
  let o := of_map m (u_pvec u) in let tt := transpose_map tg in
  g_subblocks tt = g_subblocks o /\ (forall pr, g_subblock tt pr = g_subblock o pr) /\
  g_procs tt sb = g_procs o sb /\
  g_patches tt (Some sb) = g_patches o (Some sb) /\ g_extent tt (Some sb) = g_extent o (Some sb) /\
  g_gdom tt (Some sb) p = g_gdom o (Some sb) p /\ g_ldom tt (Some sb) p = g_ldom o (Some sb) p /\
  g_local_index tt d i = g_local_index o d i.
Proof.
  intros Hsb o tt'. assert (Hs : sb < map_num_subblocks m) by exact Hsb.
  split; [reflexivity|]. split; [reflexivity|]. split; [reflexivity|]. split; [reflexivity|].
  assert (Ls : (sb <? map_num_subblocks m) = true) by now apply Nat.ltb_lt.
  split; [|split; [|split]].
  - cbn [tt' tg transpose_map g_extent of_map valid_sb g_subblocks o]. rewrite Ls. cbn [bind].
    destruct (map_subblock_extent m sb) as [e|] eqn:E; cbn [bind]; [|reflexivity].
    pose proof (ext_len _ _ E). rewrite exchanged_rev by assumption. cbn [bind]. now apply exchanged2.
  - destruct (map_global_domain m sb p) as [g|] eqn:E.
    + pose proof (dom_len _ _ _ _ E) as L. cbn [o g_gdom of_map]. rewrite E.
      unfold tt'. cbn [transpose_map g_gdom]. fold tg.
      assert (C : patch_checks tg (Some sb) p = Some tt) by exact (dom_checks _ _ _ _ E).
      assert (T : g_gdom tg (Some sb) p = Some (rev g)) by (apply t_gdom; eauto).
      rewrite C, T. cbn [bind]. now apply exchanged2.
    + cbn [o g_gdom of_map]. rewrite E. unfold tt'. cbn [transpose_map g_gdom]. fold tg.
      destruct (patch_checks tg (Some sb) p); cbn [bind]; [|reflexivity].
      destruct (g_gdom tg (Some sb) p) eqn:T; [|reflexivity]. apply t_gdom in T as (d' & Ed & _). congruence.
  - destruct (map_local_domain m sb p) as [g|] eqn:E.
    + pose proof (dom_len _ _ _ _ E) as L. cbn [o g_ldom of_map]. rewrite E.
      unfold tt'. cbn [transpose_map g_ldom]. fold tg.
      assert (C : patch_checks tg (Some sb) p = Some tt) by exact (dom_checks _ _ _ _ E).
      assert (T : g_ldom tg (Some sb) p = Some (rev g)) by (apply t_ldom; eauto).
      rewrite C, T. cbn [bind]. now apply exchanged2.
    + cbn [o g_ldom of_map]. rewrite E. unfold tt'. cbn [transpose_map g_ldom]. fold tg.
      destruct (patch_checks tg (Some sb) p); cbn [bind]; [|reflexivity].
      destruct (g_ldom tg (Some sb) p) eqn:T; [|reflexivity]. apply t_ldom in T as (d' & Ed & _). congruence.
  - cbn [tt' tg transpose_map g_local_index]. destruct d as [|[|d]]; reflexivity.
Qed.

End Fixed.

(** ** Lifetimes *)
Lemma shared_ok h v o c : v_value v = false -> v_keeps v = [] -> 1 <= h (v_obj v) -> o <> v_obj v ->
  let (t, h') := transpose_view h v o c in use_map (drop_view h' v) t = Some tt.
Proof.
  intros E K L N. unfold transpose_view, hold. rewrite E. cbn [use_map v_mapref drop_view].
  unfold drop_view. rewrite K. cbn [fold_left]. unfold set_count at 1. rewrite Nat.eqb_refl.
  unfold set_count at 1. assert (X : (v_obj v =? o) = false) by (apply Nat.eqb_neq; auto).
  unfold set_count. rewrite X, Nat.eqb_refl.
  assert (Y : (0 <? h (v_obj v) + 1 - 1) = true) by (apply Nat.ltb_lt; lia). rewrite Y. reflexivity.
Qed.

Lemma keeps_other (g : nat -> nat) l : forall h : heap, forall x, ~ In x l ->
  fold_left (fun h o => set_count h o (g (h o))) l h x = h x.
Proof.
  induction l as [|a l IH]; intros h x Hx; [reflexivity|]. cbn [fold_left In] in *.
  rewrite IH by tauto. unfold set_count. destruct (x =? a) eqn:E; [|reflexivity].
  apply Nat.eqb_eq in E. subst. tauto.
Qed.

Lemma value_dangles h v o c : v_value v = true -> h (v_obj v) = 1 -> ~ In (v_obj v) (v_keeps v) ->
  o <> v_obj v -> c <> v_obj v ->
  let (t, h') := transpose_view h v o c in use_map (drop_view h' v) t = None.
Proof.
  intros E K L N C. unfold transpose_view, hold. rewrite E. cbn [use_map v_mapref].
  unfold drop_view. cbn [fold_left].
  rewrite (keeps_other (fun n => n - 1)) by assumption.
  unfold set_count at 1. rewrite Nat.eqb_refl.
  unfold set_count at 1. assert (X : (v_obj v =? o) = false) by (apply Nat.eqb_neq; auto). rewrite X.
  rewrite (keeps_other (fun n => n + 1)) by assumption.
  unfold set_count at 1. assert (Y : (v_obj v =? c) = false) by (apply Nat.eqb_neq; auto). rewrite Y, K.
  reflexivity.
Qed.

Lemma no_subblock_lemma : forall u r c m, built u -> apply_map u [r; c] = Some m -> forall pr, ~ In pr (u_pvec u) ->
  let o := of_map m (u_pvec u) in
  g_subblock o pr = None /\ g_extent o (g_subblock o pr) = Some [0; 0] /\
  g_gdom o (g_subblock o pr) 0 = Some [(0, 0); (0, 0)] /\
  g_subblock (transpose_map o) pr = None /\
  g_extent (transpose_map o) (g_subblock o pr) = None /\ g_gdom (transpose_map o) (g_subblock o pr) 0 = None.
Proof.
  intros u r c m Hb E pr Hn o. assert (S : g_subblock o pr = None).
  { cbn [o of_map g_subblock]. unfold map_subblock. apply rank_none in Hn. now rewrite Hn. }
  destruct (m_shape u r c m E) as (d0 & d1 & Em). rewrite S.
  split; [reflexivity|]. subst m. split; [reflexivity|]. split; [reflexivity|]. split; [exact S|]. split; reflexivity.
Qed.
