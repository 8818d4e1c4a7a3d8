(** Lemmas about maps. *)
From Coq Require Import List Arith Lia Bool Permutation Sorted.
From Verif Require Import Base Dist DistProofs Traversal TraversalProofs Map.
Import ListNotations.

(** ** Splitting and composing positions *)
Lemma horner_acc size : forall acc x, length x = length size ->
  horner acc size x = acc * prod size + horner 0 size x.
Proof.
  induction size as [|s size IH]; intros acc [|y x] H; try discriminate; cbn [horner prod fold_right].
  - lia.
  - cbn [length] in H. injection H as H. rewrite (IH (acc * s + y) x H), (IH (0 * s + y) x H).
    fold (prod size). lia.
Qed.

Lemma F2_len {A B} (R : A -> B -> Prop) a b : Forall2 R a b -> length a = length b.
Proof. induction 1; simpl; auto. Qed.

Lemma horner_bound size x : Forall2 lt x size -> horner 0 size x < prod size.
Proof.
  induction 1 as [|y s x size Hy H IH]; cbn [horner prod fold_right]; [lia|].
  rewrite horner_acc by (eapply F2_len; eassumption). fold (prod size).
  assert ((y + 1) * prod size <= s * prod size) by (apply Nat.mul_le_mono_r; lia). lia.
Qed.

Lemma split_loop_horner size : forall x acc, Forall2 lt x size ->
  split_loop (horner acc size x) size = Some (x, acc).
Proof.
  induction size as [|s size IH]; intros x acc H; inversion H; subst; [reflexivity|].
  cbn [horner split_loop]. rewrite IH by assumption. cbn [bind fst snd].
  rewrite cmod_some by lia. cbn [bind].
  rewrite (Nat.add_comm (acc * s)), Nat.mod_add, (Nat.mod_small x0) by lia.
  rewrite csub_some by lia. cbn [bind].
  rewrite cdiv_some by lia. cbn [bind].
  replace (x0 + acc * s - x0) with (acc * s) by lia. rewrite Nat.div_mul by lia. reflexivity.
Qed.

Lemma split_tuple_horner size x : Forall2 lt x size ->
  split_tuple (horner 0 size x) size = Some x.
Proof.
  intros H. unfold split_tuple. rewrite split_loop_horner by assumption.
  cbn [bind fst]. rewrite Nat.eqb_refl. reflexivity.
Qed.

Lemma horner_onto size : forall v, v < prod size -> exists x, Forall2 lt x size /\ horner 0 size x = v.
Proof.
  induction size as [|s size IH]; intros v H; cbn [prod fold_right] in H.
  - exists []. split; [constructor|]. cbn. lia.
  - fold (prod size) in H.
    assert (P : prod size <> 0) by (intros E; rewrite E in H; lia).
    destruct (dm v (prod size) ltac:(lia)) as (q & r & Hr & Ev & Eq & Er).
    destruct (IH r Hr) as (x & Hx & Ex). exists (q :: x). split.
    + constructor; [|exact Hx]. apply (Nat.mul_lt_mono_pos_r (prod size)); lia.
    + cbn [horner]. rewrite horner_acc by (eapply F2_len; eassumption). lia.
Qed.

Lemma split_tuple_total size v : v < prod size -> exists x, Forall2 lt x size /\
  split_tuple v size = Some x /\ horner 0 size x = v.
Proof.
  intros H. destruct (horner_onto size v H) as (x & Hx & E). exists x.
  split; [exact Hx|]. split; [|exact E]. rewrite <- E. apply split_tuple_horner, Hx.
Qed.

Lemma split_tuple_value v size x : split_tuple v size = Some x -> horner 0 size x = v.
Proof.
  unfold split_tuple. destruct (split_loop v size) as [r|]; cbn [bind]; [|discriminate].
  destruct (Nat.eqb_spec (horner 0 size (fst r)) v); [|discriminate]. intros [= <-]. assumption.
Qed.

Lemma list_eqb_refl a : list_eqb a a = true.
Proof. induction a; simpl; [reflexivity|]. rewrite Nat.eqb_refl. assumption. Qed.
Lemma list_eqb_eq a : forall b, list_eqb a b = true -> a = b.
Proof.
  induction a as [|x a IH]; intros [|y b]; simpl; try discriminate; auto.
  intros H. apply andb_prop in H as [H1 H2]. apply Nat.eqb_eq in H1. f_equal; auto.
Qed.

(** ** One dimension *)
Lemma dim_home d n i : dist_ok d = true -> i < n -> exists sb p j s k f lf l,
  subblock_from_index d n i = Some sb /\ sb < num_subblocks d /\
  patch_from_index d n i = Some p /\ local_from_global_index d n i = Some j /\
  subblock_size d n sb = Some s /\ j < s /\ subblock_patches d n sb = Some k /\ p < k /\
  patch_global_dom d n sb p = Some (f, l) /\ patch_local_dom d n sb p = Some (lf, l) /\
  f <= i < f + l /\ lf <= j < lf + l /\ global_from_local_index d n sb j = Some i.
Proof.
  intros Hd Hi. destruct (dist_spec_all d n Hd) as (A & _ & C).
  destruct (C i Hi) as (sb & j & s & E1 & Hsb & E2 & E3 & Hj & E4).
  destruct (A sb Hsb) as (s' & k & E3' & E5 & _ & P & _ & Q).
  assert (s' = s) by congruence. subst s'.
  destruct (Q j Hj) as (p & lf & l & Hp & Ep & Hin).
  destruct (P p Hp) as (f & lf' & l' & G & L & X).
  assert (lf' = lf /\ l' = l) as [-> ->] by (split; congruence).
  destruct (X (j - lf) ltac:(lia)) as (_ & X2 & X3).
  replace (lf + (j - lf)) with j in X2 by lia.
  assert (f + (j - lf) = i) by congruence.
  exists sb, p, j, s, k, f, lf, l. replace (f + (j - lf)) with i in X3 by lia.
  repeat split; auto; lia.
Qed.

Lemma dim_back d n sb : dist_ok d = true -> sb < num_subblocks d -> exists s k,
  subblock_size d n sb = Some s /\ subblock_patches d n sb = Some k /\
  (forall j, j < s -> exists g, global_from_local_index d n sb j = Some g /\ g < n /\
     subblock_from_index d n g = Some sb /\ local_from_global_index d n g = Some j) /\
  (forall p, p < k -> exists f lf l,
     patch_global_dom d n sb p = Some (f, l) /\ patch_local_dom d n sb p = Some (lf, l) /\
     forall x, x < l -> lf + x < s /\ global_from_local_index d n sb (lf + x) = Some (f + x) /\
       patch_from_index d n (f + x) = Some p).
Proof.
  intros Hd Hsb. destruct (dist_spec_all d n Hd) as (A & _).
  destruct (A sb Hsb) as (s & k & E1 & E2 & E3 & E4 & _). exists s, k. auto.
Qed.

(** ** All dimensions *)
Definition pfi (d : dist * nat) (i : nat) := if i <? snd d then patch_from_index (fst d) (snd d) i else None.
Definition gfl (ds : dist * nat * nat) (i : nat) :=
  global_from_local_index (fst (fst ds)) (snd (fst ds)) (snd ds) i.
Definition pdm (f : dist -> nat -> nat -> nat -> option (nat * nat)) (ds : dist * nat * nat) (q : nat) :=
  f (fst (fst ds)) (snd (fst ds)) (snd ds) q.
Definition ssz (d : dist * nat) (sb : nat) := subblock_size (fst d) (snd d) sb.

Lemma home_list m : map_ok m -> forall g, in_range (ext_of m) g -> exists sbs ps js ss ks gd ld,
  Forall2 lt sbs (subblocks m) /\ dim_subblocks m g = Some sbs /\ patch_counts m sbs = Some ks /\
  Forall2 lt ps ks /\ omap2 pfi m g = Some ps /\ map_local_from_global_index m g = Some js /\
  omap2 ssz m sbs = Some ss /\ in_range ss js /\ omap2 gfl (combine m sbs) js = Some g /\
  omap2 (pdm patch_global_dom) (combine m sbs) ps = Some gd /\
  omap2 (pdm patch_local_dom) (combine m sbs) ps = Some ld /\ in_box gd g /\ in_box ld js.
Proof.
  induction 1 as [|[d n] m Hd Hm IH]; intros g Hg; inversion Hg as [|x n0 g' e' H1 H3]; subst.
  - exists [], [], [], [], [], [], []. repeat split; constructor.
  - destruct (IH _ H3) as (sbs & ps & js & ss & ks & gd & ld & A1 & A2 & A3 & A4 & A5 & A6 & A7 & A8 & A9 & A10 & A11 & A12 & A13).
    cbn [fst snd] in *.
    destruct (dim_home d n x Hd H1) as (sb & p & j & s & k & f & lf & l' & B1 & B2 & B3 & B4 & B5 & B6 & B7 & B8 & B9 & B10 & B11 & B12 & B13).
    exists (sb :: sbs), (p :: ps), (j :: js), (s :: ss), (k :: ks), ((f, l') :: gd), ((lf, l') :: ld).
    unfold dim_subblocks, patch_counts, map_local_from_global_index, subblocks, in_range, in_box in *.
    cbn [omap2 fst snd map combine]. unfold pfi at 1, gfl at 1, pdm at 1, pdm at 2, ssz at 1.
    cbn [fst snd]. apply Nat.ltb_lt in H1. rewrite H1, B1, B3, B4, B5, B7, B9, B10, B13.
    cbn [bind]. rewrite A2, A3, A5, A6, A7, A9, A10, A11. cbn [bind].
    repeat split; try (constructor; cbn [fst snd]; auto).
Qed.

Lemma back_list m : map_ok m -> forall sbs, Forall2 lt sbs (subblocks m) -> exists ss ks,
  omap2 ssz m sbs = Some ss /\ patch_counts m sbs = Some ks /\
  (forall l, in_range ss l -> exists g, omap2 gfl (combine m sbs) l = Some g /\ in_range (ext_of m) g /\
     dim_subblocks m g = Some sbs /\ map_local_from_global_index m g = Some l) /\
  (forall ps, Forall2 lt ps ks -> exists gd ld,
     omap2 (pdm patch_global_dom) (combine m sbs) ps = Some gd /\
     omap2 (pdm patch_local_dom) (combine m sbs) ps = Some ld /\ map snd ld = map snd gd /\
     forall x, in_range (map snd gd) x -> in_range ss (domain_nth ld x) /\
       omap2 gfl (combine m sbs) (domain_nth ld x) = Some (domain_nth gd x) /\
       omap2 pfi m (domain_nth gd x) = Some ps).
Proof.
  induction 1 as [|[d n] m Hd Hm IH]; intros sbs Hs; inversion Hs as [|x n0 sbs' e' H1 H3]; subst.
  - exists [], []. repeat split; try constructor.
    + intros l Hl. inversion Hl. exists []. repeat split; constructor.
    + intros ps Hp. inversion Hp. exists [], []. repeat split; try constructor.
      all: inversion H; subst; try constructor.
  - destruct (IH _ H3) as (ss & ks & A1 & A2 & A3 & A4). cbn [fst snd] in *. clear IH.
    destruct (dim_back d n x Hd H1) as (s & k & B1 & B2 & B3 & B4).
    exists (s :: ss), (k :: ks).
    unfold dim_subblocks, patch_counts, map_local_from_global_index, subblocks, in_range in *.
    cbn [omap2 fst snd map combine]. unfold ssz at 1. cbn [fst snd]. rewrite B1, B2. cbn [bind].
    rewrite A1, A2. cbn [bind]. split; [reflexivity|]. split; [reflexivity|]. split.
    + intros l0 Hl. inversion Hl as [|j s0 js ss0 Hj Hjs]; subst.
      destruct (B3 j Hj) as (g & G1 & G2 & G3 & G4).
      destruct (A3 js Hjs) as (gs & Q1 & Q2 & Q3 & Q4).
      exists (g :: gs). cbn [omap2 fst snd map combine ext_of]. unfold gfl at 1. cbn [fst snd].
      rewrite G1. cbn [bind]. rewrite Q1. cbn [bind].
      assert (g <? n = true) as -> by (apply Nat.ltb_lt; assumption).
      rewrite G3, G4. cbn [bind]. rewrite Q3, Q4. cbn [bind].
      repeat split. constructor; assumption.
    + intros ps Hp. inversion Hp as [|p k0 ps' ks' Hp1 Hps]; subst.
      destruct (B4 p Hp1) as (f & lf & l0 & P1 & P2 & P3).
      destruct (A4 ps' Hps) as (gd & ld & Q1 & Q2 & Q3 & Q4).
      exists ((f, l0) :: gd), ((lf, l0) :: ld).
      cbn [omap2 fst snd map combine]. unfold pdm at 1, pdm at 2. cbn [fst snd].
      rewrite P1, P2. cbn [bind]. rewrite Q1, Q2. cbn [bind]. rewrite Q3.
      repeat split; cbn [map snd] in H; inversion H as [|y l1 xs ls Hy Hxs]; subst;
        destruct (P3 y Hy) as (R1 & R2 & R3); destruct (Q4 xs Hxs) as (T1 & T2 & T3);
        unfold domain_nth in *; cbn [combine map fst snd omap2].
      * constructor; assumption.
      * unfold gfl at 1. cbn [fst snd]. rewrite R2. cbn [bind]. rewrite T2. reflexivity.
      * unfold pfi at 1. cbn [fst snd]. 
        destruct (B3 (lf + y) R1) as (g & G1 & G2 & _). assert (g = f + y) by congruence; subst g.
        assert (f + y <? n = true) as -> by (apply Nat.ltb_lt; assumption).
        rewrite R3. cbn [bind]. rewrite T3. reflexivity.
Qed.

Lemma in_box_nth dom g : in_box dom g -> exists x, in_range (map snd dom) x /\ g = domain_nth dom x.
Proof.
  unfold in_box. induction 1 as [|i [f l] g dom H H' IH].
  - exists []. split; constructor.
  - destruct IH as (x & Hx & ->). cbn [fst snd] in H. exists ((i - f) :: x).
    unfold domain_nth in *. cbn [map snd combine fst]. split; [constructor; [lia|exact Hx]|].
    f_equal. lia.
Qed.

Lemma nth_in_box dom x : in_range (map snd dom) x -> in_box dom (domain_nth dom x).
Proof.
  revert x; induction dom as [|[f l] dom IH]; intros x H; inversion H; subst.
  - constructor.
  - unfold in_box, domain_nth. cbn [combine map fst snd]. constructor; [cbn [fst snd] in *; lia|].
    apply IH; assumption.
Qed.

Lemma subblock_ok m sbs g : Forall2 lt sbs (subblocks m) -> dim_subblocks m g = Some sbs ->
  map_subblock_from_global_index m g = Some (horner 0 (subblocks m) sbs).
Proof.
  intros H E. unfold map_subblock_from_global_index. rewrite E. cbn [bind].
  assert (horner 0 (subblocks m) sbs <? map_num_subblocks m = true) as ->
    by (apply Nat.ltb_lt, horner_bound, H).
  rewrite split_tuple_horner by assumption. cbn [bind]. rewrite list_eqb_refl. reflexivity.
Qed.

Lemma num_patches_ok m sbs ks : Forall2 lt sbs (subblocks m) -> patch_counts m sbs = Some ks ->
  map_num_patches m (horner 0 (subblocks m) sbs) = Some (prod ks).
Proof.
  intros H E. unfold map_num_patches.
  assert (horner 0 (subblocks m) sbs <? map_num_subblocks m = true) as ->
    by (apply Nat.ltb_lt, horner_bound, H).
  rewrite split_tuple_horner by assumption. cbn [bind]. rewrite E. reflexivity.
Qed.

Lemma patch_ok m sbs ks ps g : Forall2 lt sbs (subblocks m) -> dim_subblocks m g = Some sbs ->
  patch_counts m sbs = Some ks -> Forall2 lt ps ks -> omap2 pfi m g = Some ps ->
  map_patch_from_global_index m g = Some (horner 0 ks ps).
Proof.
  intros H E K P F. unfold map_patch_from_global_index. rewrite (subblock_ok _ _ _ H E). cbn [bind].
  rewrite split_tuple_horner by assumption. cbn [bind]. rewrite K. cbn [bind].
  change (fun d i => if i <? snd d then patch_from_index (fst d) (snd d) i else None) with pfi.
  rewrite F. cbn [bind]. rewrite (num_patches_ok _ _ _ H K). cbn [bind].
  assert (horner 0 ks ps <? prod ks = true) as -> by (apply Nat.ltb_lt, horner_bound, P). reflexivity.
Qed.

Lemma patch_dom_ok f m sbs ks ps : Forall2 lt sbs (subblocks m) -> patch_counts m sbs = Some ks ->
  Forall2 lt ps ks ->
  patch_dom f m (horner 0 (subblocks m) sbs) (horner 0 ks ps) = omap2 (pdm f) (combine m sbs) ps.
Proof.
  intros H E P. unfold patch_dom.
  assert (horner 0 (subblocks m) sbs <? map_num_subblocks m = true) as ->
    by (apply Nat.ltb_lt, horner_bound, H).
  rewrite (num_patches_ok _ _ _ H E). cbn [bind].
  assert (horner 0 ks ps <? prod ks = true) as -> by (apply Nat.ltb_lt, horner_bound, P).
  rewrite split_tuple_horner by assumption. cbn [bind]. rewrite E. cbn [bind].
  rewrite split_tuple_horner by assumption. reflexivity.
Qed.

(** A defined patch domain comes from coordinates. *)
Lemma patch_dom_inv f m sb p dom : map_ok m -> patch_dom f m sb p = Some dom -> exists sbs ks ps,
  Forall2 lt sbs (subblocks m) /\ patch_counts m sbs = Some ks /\ Forall2 lt ps ks /\
  sb = horner 0 (subblocks m) sbs /\ p = horner 0 ks ps /\ omap2 (pdm f) (combine m sbs) ps = Some dom.
Proof.
  intros Hm E. pose proof E as E0. unfold patch_dom in E.
  destruct (Nat.ltb_spec sb (map_num_subblocks m)) as [Hsb|]; [|discriminate].
  destruct (split_tuple_total (subblocks m) sb Hsb) as (sbs & S1 & S2 & S3).
  destruct (back_list m Hm sbs S1) as (ss & ks & B1 & B2 & _).
  rewrite <- S3, (num_patches_ok m sbs ks S1 B2) in E. cbn [bind] in E.
  destruct (Nat.ltb_spec p (prod ks)) as [Hp|]; [|discriminate].
  destruct (split_tuple_total ks p Hp) as (ps & P1 & P2 & P3).
  exists sbs, ks, ps. repeat split; auto.
  rewrite <- S3, <- P3 in E0. rewrite (patch_dom_ok f m sbs ks ps) in E0 by assumption. exact E0.
Qed.

Lemma extent_inv m sb ext : map_subblock_extent m sb = Some ext -> exists sbs,
  Forall2 lt sbs (subblocks m) /\ sb = horner 0 (subblocks m) sbs /\ omap2 ssz m sbs = Some ext.
Proof.
  unfold map_subblock_extent. destruct (Nat.ltb_spec sb (map_num_subblocks m)) as [Hsb|]; [|discriminate].
  destruct (split_tuple_total (subblocks m) sb Hsb) as (sbs & S1 & S2 & S3).
  rewrite S2. cbn [bind]. intros E. exists sbs. auto.
Qed.

Lemma extent_ok m sbs : Forall2 lt sbs (subblocks m) ->
  map_subblock_extent m (horner 0 (subblocks m) sbs) = omap2 ssz m sbs.
Proof.
  intros H. unfold map_subblock_extent.
  assert (horner 0 (subblocks m) sbs <? map_num_subblocks m = true) as ->
    by (apply Nat.ltb_lt, horner_bound, H).
  rewrite split_tuple_horner by assumption. reflexivity.
Qed.

Lemma gfl_ok m sbs l : Forall2 lt sbs (subblocks m) ->
  map_global_from_local_index m (horner 0 (subblocks m) sbs) l = omap2 gfl (combine m sbs) l.
Proof.
  intros H. unfold map_global_from_local_index.
  rewrite split_tuple_horner by assumption. reflexivity.
Qed.

(** A patch member's home is that patch. *)
Lemma in_patch_home m sb p g : map_ok m -> in_map_patch m sb p g ->
  in_range (ext_of m) g /\ map_subblock_from_global_index m g = Some sb /\
  map_patch_from_global_index m g = Some p.
Proof.
  intros Hm (dom & E & Hin).
  destruct (patch_dom_inv _ _ _ _ _ Hm E) as (sbs & ks & ps & H1 & H2 & H3 & -> & -> & H6).
  destruct (back_list m Hm sbs H1) as (ss & ks' & B1 & B2 & B3 & B4).
  assert (ks' = ks) by congruence; subst ks'.
  destruct (B4 ps H3) as (gd & ld & Q1 & Q2 & Q3 & Q4). assert (gd = dom) by congruence; subst gd.
  destruct (in_box_nth _ _ Hin) as (x & Hx & ->).
  destruct (Q4 x Hx) as (R1 & R2 & R3).
  destruct (B3 _ R1) as (g & G1 & G2 & G3 & G4). assert (g = domain_nth dom x) by congruence; subst g.
  split; [exact G2|]. split.
  - apply subblock_ok; assumption.
  - eapply patch_ok; eassumption.
Qed.

Lemma in_local_patch_home m sb p l : map_ok m -> in_map_local_patch m sb p l ->
  exists ext g, map_subblock_extent m sb = Some ext /\ in_range ext l /\
    map_global_from_local_index m sb l = Some g /\ in_map_patch m sb p g.
Proof.
  intros Hm (dom & E & Hin).
  destruct (patch_dom_inv _ _ _ _ _ Hm E) as (sbs & ks & ps & H1 & H2 & H3 & -> & -> & H6).
  destruct (back_list m Hm sbs H1) as (ss & ks' & B1 & B2 & B3 & B4).
  assert (ks' = ks) by congruence; subst ks'.
  destruct (B4 ps H3) as (gd & ld & Q1 & Q2 & Q3 & Q4). assert (ld = dom) by congruence; subst ld.
  destruct (in_box_nth _ _ Hin) as (x & Hx & ->). rewrite Q3 in Hx.
  destruct (Q4 x Hx) as (R1 & R2 & R3).
  exists ss, (domain_nth gd x). rewrite extent_ok, gfl_ok by assumption.
  repeat split; auto. exists gd. split; [|apply nth_in_box, Hx].
  unfold map_global_domain. rewrite (patch_dom_ok _ m sbs ks ps) by assumption. exact Q1.
Qed.

Lemma map_partitioned_lemma m : map_ok m -> map_partitioned m.
Proof.
  intros Hm. constructor.
  - intros g Hg.
    destruct (home_list m Hm g Hg) as (sbs & ps & js & ss & ks & gd & ld & A1 & A2 & A3 & A4 & A5 & A6 & A7 & A8 & A9 & A10 & A11 & A12 & A13).
    exists (horner 0 (subblocks m) sbs), (horner 0 ks ps), js, ss.
    split; [apply subblock_ok; assumption|]. split; [apply horner_bound, A1|].
    split; [eapply patch_ok; eassumption|]. split.
    + exists gd. split; [|exact A12]. unfold map_global_domain. rewrite (patch_dom_ok _ m sbs ks ps) by assumption. exact A10.
    + split; [|rewrite extent_ok, gfl_ok by assumption; auto].
      intros sb' p' H. destruct (in_patch_home m sb' p' g Hm H) as (_ & S & P).
      rewrite (subblock_ok m sbs) in S by assumption. 
      rewrite (patch_ok m sbs ks ps) in P by assumption. split; congruence.
  - intros sb p g H. apply (in_patch_home m sb p g Hm H).
  - intros sb ext l E Hl. destruct (extent_inv m sb ext E) as (sbs & S1 & -> & S3).
    destruct (back_list m Hm sbs S1) as (ss & ks & B1 & B2 & B3 & B4).
    assert (ss = ext) by congruence; subst ss.
    destruct (B3 l Hl) as (g & G1 & G2 & G3 & G4). exists g. rewrite gfl_ok by assumption.
    repeat split; auto. apply subblock_ok; assumption.
  - intros sb p gdom E.
    destruct (patch_dom_inv _ _ _ _ _ Hm E) as (sbs & ks & ps & H1 & H2 & H3 & -> & -> & H6).
    destruct (back_list m Hm sbs H1) as (ss & ks' & B1 & B2 & B3 & B4).
    assert (ks' = ks) by congruence; subst ks'.
    destruct (B4 ps H3) as (gd & ld & Q1 & Q2 & Q3 & Q4). assert (gd = gdom) by congruence; subst gd.
    exists ld. unfold map_local_domain. rewrite (patch_dom_ok _ m sbs ks ps) by assumption.
    repeat split; auto. intros x Hx. rewrite gfl_ok by assumption. apply (Q4 x Hx).
  - intros sb ext E l. split; [split|].
    + intros Hl. destruct (extent_inv m sb ext E) as (sbs & S1 & -> & S3).
      destruct (back_list m Hm sbs S1) as (ss & ks & B1 & B2 & B3 & B4).
      assert (ss = ext) by congruence; subst ss.
      destruct (B3 l Hl) as (g & G1 & G2 & G3 & G4).
      destruct (home_list m Hm g G2) as (sbs' & ps & js & ss' & ks' & gd & ld & A1 & A2 & A3 & A4 & A5 & A6 & A7 & A8 & A9 & A10 & A11 & A12 & A13).
      assert (sbs' = sbs) by congruence; subst sbs'. assert (js = l) by congruence; subst js.
      exists (horner 0 ks' ps), ld. unfold map_local_domain.
      rewrite (patch_dom_ok _ m sbs ks' ps) by assumption. auto.
    + intros (p & H). destruct (in_local_patch_home m sb p l Hm H) as (ext' & g & E' & H' & _).
      assert (ext' = ext) by congruence; subst; assumption.
    + intros p p' H H'. destruct (in_local_patch_home m sb p l Hm H) as (e & g & _ & _ & G & P).
      destruct (in_local_patch_home m sb p' l Hm H') as (e' & g' & _ & _ & G' & P').
      assert (g' = g) by congruence; subst g'.
      apply (in_patch_home m sb p g Hm) in P. apply (in_patch_home m sb p' g Hm) in P'.
      destruct P as (_ & _ & P), P' as (_ & _ & P'). congruence.
  - intros sb. split.
    + intros H. destruct (split_tuple_total (subblocks m) sb H) as (sbs & S1 & S2 & S3).
      destruct (back_list m Hm sbs S1) as (ss & ks & B1 & B2 & B3 & B4).
      exists ss. rewrite <- S3, extent_ok by assumption. exact B1.
    + intros (ext & E). destruct (extent_inv m sb ext E) as (sbs & S1 & -> & S3).
      apply horner_bound, S1.
  - intros sb H. destruct (split_tuple_total (subblocks m) sb H) as (sbs & S1 & S2 & S3).
    destruct (back_list m Hm sbs S1) as (ss & ks & B1 & B2 & B3 & B4).
    exists (prod ks). rewrite <- S3. split; [apply num_patches_ok; assumption|].
    intros p. split.
    + intros Hp. destruct (split_tuple_total ks p Hp) as (ps & P1 & P2 & P3).
      destruct (B4 ps P1) as (gd & ld & Q1 & Q2 & Q3 & Q4). exists gd.
      rewrite <- P3. unfold map_global_domain. rewrite (patch_dom_ok _ m sbs ks ps) by assumption. exact Q1.
    + intros (dom & E). unfold map_global_domain, patch_dom in E.
      destruct (horner 0 (subblocks m) sbs <? map_num_subblocks m); [|discriminate].
      rewrite (num_patches_ok m sbs ks) in E by assumption. cbn [bind] in E.
      destruct (Nat.ltb_spec p (prod ks)); [assumption|discriminate].
  - split.
    + intros sb H. destruct (split_tuple_total (subblocks m) sb H) as (sbs & S1 & S2 & S3).
      exists sbs. repeat split; auto; intros E; congruence.
    + intros c H. exists (horner 0 (subblocks m) c). split; [apply horner_bound, H|].
      split; [apply split_tuple_horner, H|]. intros sb' _ E.
      symmetry. apply split_tuple_value, E.
Qed.

(** ** Processors *)
Lemma rank_spec pvec pr k : NoDup pvec -> (rank_from_proc pvec pr = Some k <-> nth_error pvec k = Some pr).
Proof.
  intros N; revert k; induction N as [|x pvec Hx N IH]; intros k; cbn [rank_from_proc].
  - destruct k; split; discriminate.
  - destruct (Nat.eqb_spec x pr) as [->|Ne].
    + destruct k as [|k]; cbn [nth_error]; split; intros E; try congruence.
      exfalso. apply Hx. eapply nth_error_In, E.
    + destruct k as [|k]; cbn [nth_error].
      * split; [|congruence]. destruct (rank_from_proc pvec pr); discriminate.
      * rewrite <- IH. destruct (rank_from_proc pvec pr); cbn [option_map]; split; congruence.
Qed.

Lemma rank_none pvec pr : rank_from_proc pvec pr = None <-> ~ In pr pvec.
Proof.
  induction pvec as [|x pvec IH]; cbn [rank_from_proc In]; [tauto|].
  destruct (Nat.eqb_spec x pr) as [->|Ne].
  - split; [discriminate|tauto].
  - destruct (rank_from_proc pvec pr); cbn [option_map]; [split; [discriminate|]|].
    + intros H. exfalso. destruct IH as [_ IH]. 
      assert (Some n = None) by (apply IH; tauto). discriminate.
    + split; [|reflexivity]. intros _ [H|H]; [tauto|]. apply IH; auto.
Qed.

Lemma firstn_NoDup {A} (l : list A) n : NoDup l -> NoDup (firstn n l).
Proof.
  intros H; revert n; induction H as [|x l Hx H IH]; intros [|n]; cbn [firstn]; constructor; auto.
  intros X. apply Hx. rewrite <- (firstn_skipn n l). apply in_or_app; left; assumption.
Qed.

Lemma map_owner_lemma m procs pvec : NoDup procs -> map_pvec m procs = Some pvec ->
  (forall pr sb, map_subblock m pvec pr = Some sb <->
     exists l, map_processors m pvec sb = Some l /\ In pr l) /\
  (forall pr, ~ In pr pvec -> map_subblock m pvec pr = None) /\
  (forall sb, sb < map_num_subblocks m -> exists pr, map_subblock m pvec pr = Some sb /\
     forall pr', map_subblock m pvec pr' = Some sb -> pr' = pr).
Proof.
  intros N E. unfold map_pvec in E.
  destruct (Nat.leb_spec (map_num_subblocks m) (length procs)) as [L|]; [|discriminate].
  injection E as E. 
  assert (Np : NoDup pvec) by (rewrite <- E; apply firstn_NoDup, N).
  assert (Lp : length pvec = map_num_subblocks m) by (rewrite <- E, firstn_length; lia).
  assert (Q : forall pr sb, map_subblock m pvec pr = Some sb <-> nth_error pvec sb = Some pr).
  { intros pr sb. unfold map_subblock. rewrite <- (rank_spec pvec pr sb Np).
    destruct (rank_from_proc pvec pr) as [k|] eqn:R; [|split; discriminate].
    apply (rank_spec pvec pr k Np) in R. 
    assert (k < length pvec) by (apply nth_error_Some; congruence).
    destruct (Nat.ltb_spec k (map_num_subblocks m)); [|lia]. split; congruence. }
  split; [|split].
  - intros pr sb. rewrite Q. unfold map_processors. split.
    + intros H. assert (sb < length pvec) by (apply nth_error_Some; congruence).
      destruct (Nat.ltb_spec sb (map_num_subblocks m)); [|lia].
      rewrite Nat.mod_small, H by lia. exists [pr]. split; [reflexivity|left; reflexivity].
    + intros (l & H & Hin). destruct (Nat.ltb_spec sb (map_num_subblocks m)); [|discriminate].
      rewrite Nat.mod_small in H by lia. destruct (nth_error pvec sb) as [x|]; [|discriminate].
      injection H as <-. destruct Hin as [->|[]]. reflexivity.
  - intros pr H. unfold map_subblock. apply rank_none in H. rewrite H. reflexivity.
  - intros sb H. destruct (nth_error pvec sb) as [pr|] eqn:X.
    + exists pr. split; [apply Q, X|]. intros pr' P. apply Q in P. congruence.
    + apply nth_error_None in X. lia.
Qed.

Lemma rep_owner_lemma pvec : (forall pr sb, rep_subblock pvec pr = Some sb <->
     exists l, rep_processors pvec sb = Some l /\ In pr l) /\
  (forall pr, ~ In pr pvec -> rep_subblock pvec pr = None).
Proof.
  split.
  - intros pr sb. unfold rep_subblock, rep_processors.
    destruct (rank_from_proc pvec pr) as [k|] eqn:R.
    + assert (In pr pvec).
      { destruct (in_dec Nat.eq_dec pr pvec) as [I|I]; [exact I|].
        apply rank_none in I. congruence. }
      split; [intros [= <-]; exists pvec; auto|].
      intros (l & E & _). destruct (Nat.eqb_spec sb 0); [subst; reflexivity|discriminate].
    + apply rank_none in R. split; [discriminate|]. intros (l & E & I).
      destruct (sb =? 0); [|discriminate]. injection E as <-. contradiction.
  - intros pr H. unfold rep_subblock. apply rank_none in H. rewrite H. reflexivity.
Qed.

(** ** Equality *)
Lemma dist_eta a b : kind a = kind b -> num_subblocks a = num_subblocks b ->
  cyclic_contiguity a = cyclic_contiguity b -> a = b.
Proof. destruct a, b; cbn; intros; try discriminate; subst; reflexivity. Qed.

Lemma dists_eq_eq a : forall b, dists_eq a b = true -> a = b.
Proof.
  induction a as [|x a IH]; intros [|y b]; cbn [dists_eq]; try discriminate; auto.
  intros H. repeat (apply andb_prop in H as [H ?]). repeat match goal with X : (_ =? _) = true |- _ => apply Nat.eqb_eq in X end.
  f_equal; [apply dist_eta; assumption|auto].
Qed.

Lemma map_eq_lemma a b : map_eq a b = true -> forall lens g pr l,
  placed a lens g pr l <-> placed b lens g pr l.
Proof.
  intros H. unfold map_eq in H. apply andb_prop in H as [H1 H2].
  apply dists_eq_eq in H1. apply list_eqb_eq in H2.
  destruct a, b; cbn in *; subst. reflexivity.
Qed.

Lemma equiv_dims_firstn D : forall a b, Forall2 (fun x y => kind x = kind y) a b ->
  equiv_dims D a b = true -> firstn D a = firstn D b.
Proof.
  induction D as [|D IH]; intros a b K H; [reflexivity|].
  inversion K as [|x y a' b' Kxy K' ]; subst; [reflexivity|]. cbn [equiv_dims] in H.
  repeat (apply andb_prop in H as [H ?]). repeat match goal with X : (_ =? _) = true |- _ => apply Nat.eqb_eq in X end.
  cbn [firstn]. f_equal; [apply dist_eta; assumption|auto].
Qed.

Lemma prod_app a b : prod (a ++ b) = prod a * prod b.
Proof. induction a as [|x a IH]; cbn [prod fold_right app]; [fold (prod b); lia|]. fold (prod (a ++ b)) (prod a). rewrite IH. lia. Qed.

Lemma prod_ones l : forallb (fun d => num_subblocks d =? 1) l = true -> prod (map num_subblocks l) = 1.
Proof.
  induction l as [|d l IH]; cbn [forallb map prod fold_right]; [reflexivity|].
  intros H. apply andb_prop in H as [H1 H2]. apply Nat.eqb_eq in H1. fold (prod (map num_subblocks l)).
  rewrite H1, (IH H2). reflexivity.
Qed.

Lemma combine_firstn {A B} (a : list A) : forall (b : list B), combine a b = combine (firstn (length b) a) b.
Proof. induction a as [|x a IH]; intros [|y b]; cbn; try reflexivity. f_equal; apply IH. Qed.

Lemma subblocks_combine (l : list dist) : forall lens, length lens = length l ->
  subblocks (combine l lens) = map num_subblocks l.
Proof.
  unfold subblocks. induction l as [|d l IH]; intros [|n lens] H; cbn in *; try discriminate; [reflexivity|].
  f_equal. apply IH. lia.
Qed.

Lemma apply_num u lens m : apply_map u lens = Some m ->
  m = combine (firstn (length lens) (u_d u)) lens /\ map_num_subblocks m = u_num u.
Proof.
  unfold apply_map. destruct (Nat.leb_spec (length lens) (length (u_d u))) as [L|]; [|discriminate].
  destruct (forallb _ _) eqn:F; [|discriminate]. intros [= <-].
  split; [apply combine_firstn|]. rewrite combine_firstn. unfold map_num_subblocks, u_num.
  rewrite subblocks_combine by (rewrite firstn_length; lia).
  rewrite <- (firstn_skipn (length lens) (u_d u)) at 2. rewrite map_app, prod_app, (prod_ones (skipn _ _)) by exact F. lia.
Qed.

Lemma map_equiv_lemma D a b : built a -> built b -> same_type a b ->
  forall lens ma mb, length lens = D -> apply_map a lens = Some ma -> apply_map b lens = Some mb ->
  map_equiv D a b = Some true -> forall g pr l, placed a lens g pr l <-> placed b lens g pr l.
Proof.
  intros [_ La] [_ Lb] T lens ma mb <- Ea Eb H g pr l.
  unfold map_equiv in H. destruct (equiv_dims _ _ _) eqn:Q; cbn [negb] in H; [|discriminate].
  apply equiv_dims_firstn in Q; [|exact T].
  destruct (apply_num a lens ma Ea) as [Ma Na]. destruct (apply_num b lens mb Eb) as [Mb Nb].
  assert (Em : ma = mb) by congruence. assert (Nn : u_num a = u_num b) by congruence.
  destruct (u_num a <=? length (u_pvec a)); [|discriminate].
  destruct (u_num b <=? length (u_pvec b)); [|discriminate].
  destruct (u_num a <=? length (u_pvec b)); [|discriminate].
  assert (L : list_eqb (firstn (u_num a) (u_pvec a)) (firstn (u_num a) (u_pvec b)) = true) by congruence.
  apply list_eqb_eq in L.
  rewrite <- La in L at 1. rewrite Nn, <- Lb in L. rewrite !firstn_all in L.
  unfold placed. rewrite Ea, Eb, L, Em. reflexivity.
Qed.

Lemma map_equiv_total D a b : built a -> built b ->
  forall lens ma mb, length lens = D -> apply_map a lens = Some ma -> apply_map b lens = Some mb ->
  same_type a b -> exists r, map_equiv D a b = Some r.
Proof.
  intros [_ La] [_ Lb] lens ma mb <- Ea Eb T.
  unfold map_equiv. destruct (equiv_dims _ _ _) eqn:Q; cbn [negb]; [|eauto].
  apply equiv_dims_firstn in Q; [|exact T].
  destruct (apply_num a lens ma Ea) as [Ma Na]. destruct (apply_num b lens mb Eb) as [Mb Nb].
  assert (Em : ma = mb) by congruence. assert (Nn : u_num a = u_num b) by congruence.
  rewrite La, Lb, Nn, !Nat.leb_refl. eauto.
Qed.

(** ** Iteration *)
Lemma row_major_valid D : 1 <= D <= 3 -> order_valid D (row_major D) = true.
Proof. intros H. destruct D as [|[|[|[|D]]]]; try lia; reflexivity. Qed.

Lemma omap2_len {A B C} (f : A -> B -> option C) : forall a b c, omap2 f a b = Some c ->
  length a = length b /\ length c = length a.
Proof.
  induction a as [|x a IH]; intros [|y b] c; cbn [omap2]; try discriminate.
  - intros [= <-]. auto.
  - destruct (f x y) as [z|]; cbn [bind]; [|discriminate].
    destruct (omap2 f a b) as [r|] eqn:R; cbn [bind]; [|discriminate].
    intros [= <-]. destruct (IH b r R). cbn [length]. lia.
Qed.

Lemma combine_len {A B} (a : list A) (b : list B) : length a = length b -> length (combine a b) = length a.
Proof. intros H. rewrite combine_length, <- H. apply Nat.min_id. Qed.

Lemma domain_nth_inj dom : forall x y, length x = length dom -> length y = length dom ->
  domain_nth dom x = domain_nth dom y -> x = y.
Proof.
  unfold domain_nth. induction dom as [|d dom IH]; intros [|a x] [|b y]; cbn; intros; try discriminate; auto.
  injection H1 as E1 E2. f_equal; [lia|]. apply IH; auto.
Qed.

Lemma NoDup_map_inj {A B} (f : A -> B) l : (forall x y, In x l -> In y l -> f x = f y -> x = y) ->
  NoDup l -> NoDup (map f l).
Proof.
  intros H N; induction N as [|x l Hx N IH]; cbn [map]; constructor.
  - rewrite in_map_iff. intros (y & E & Hy). apply Hx. rewrite (H x y); auto; [left|right]; auto.
  - apply IH. intros; apply H; auto; right; assumption.
Qed.

(** The points of one patch. *)
Lemma patch_points_ok ldom gdom : 1 <= length ldom <= 3 -> map snd ldom = map snd gdom ->
  exists pts n, (forall fuel, n <= fuel -> patch_points fuel ldom gdom = Some pts) /\
    NoDup (map fst pts) /\
    (forall l g, In (l, g) pts <-> exists x, in_range (map snd ldom) x /\ l = domain_nth ldom x /\ g = domain_nth gdom x).
Proof.
  intros L E. 
  destruct (traverse_lemma (row_major (length (map snd ldom))) (map snd ldom)) as (is & n & H1 & H2 & H3 & _).
  { apply row_major_valid. rewrite map_length. exact L. }
  exists (map (fun i => (domain_nth ldom i, domain_nth gdom i)) is), n.
  split; [|split].
  - intros fuel Hf. unfold patch_points. rewrite H1 by assumption. reflexivity.
  - rewrite map_map. cbn [fst]. apply NoDup_map_inj; [|exact H3].
    intros x y Hx Hy. apply H2 in Hx, Hy. apply F2_len in Hx, Hy. rewrite map_length in Hx, Hy.
    apply domain_nth_inj; assumption.
  - intros l g. rewrite in_map_iff. split.
    + intros (x & [= <- <-] & Hx). apply H2 in Hx. exists x. auto.
    + intros (x & Hx & -> & ->). exists x. split; [reflexivity|]. apply H2, Hx.
Qed.

Lemma app_NoDup {A} (x y : list A) : NoDup x -> NoDup y -> (forall z, In z x -> ~ In z y) -> NoDup (x ++ y).
Proof.
  induction x as [|z x IHx]; simpl; intros Nx Ny H; [exact Ny|].
  inversion Nx; subst. constructor.
  - rewrite in_app_iff. intros [X|X]; [contradiction|]. apply (H z); auto.
  - apply IHx; auto.
Qed.

Lemma local_dom_len m sb p ldom : map_ok m -> map_local_domain m sb p = Some ldom -> length ldom = length m.
Proof.
  intros Hm E. destruct (patch_dom_inv _ _ _ _ _ Hm E) as (sbs & ks & ps & H1 & H2 & H3 & -> & -> & H6).
  apply omap2_len in H6 as [_ H6]. rewrite H6. apply combine_len.
  apply F2_len in H1. rewrite H1. unfold subblocks. rewrite map_length. reflexivity.
Qed.

Lemma patches_points_ok m sb K : map_ok m -> 1 <= length m <= 3 -> sb < map_num_subblocks m ->
  map_num_patches m sb = Some K -> forall k p, p + k = K ->
  exists pts n, (forall fuel, n <= fuel -> patches_points fuel m sb p k = Some pts) /\
    NoDup (map fst pts) /\
    (forall l g, In (l, g) pts <-> exists q, p <= q /\ in_map_local_patch m sb q l /\
        map_global_from_local_index m sb l = Some g).
Proof.
  intros Hm Lm Hsb EK. pose proof (map_partitioned_lemma m Hm) as MP.
  destruct (mp_patches m MP sb Hsb) as (K' & EK' & HK). assert (K' = K) by congruence. subst K'. clear EK'.
  assert (LD : forall q l, in_map_local_patch m sb q l -> q < K).
  { intros q l H. destruct (in_local_patch_home m sb q l Hm H) as (e & g & _ & _ & _ & (d & Hd & _)).
    apply HK. eauto. }
  induction k as [|k IH]; intros p Hp.
  - exists [], 0. split; [reflexivity|]. split; [constructor|]. intros l g. split; [intros []|].
    intros (q & Hq & H & _). apply LD in H. lia.
  - destruct (IH (p + 1) ltac:(lia)) as (pts & n & P1 & P2 & P3).
    destruct (proj1 (HK p) ltac:(lia)) as (gdom & Eg).
    destruct (mp_patch_match m MP sb p gdom Eg) as (ldom & El & Sn & G).
    destruct (patch_points_ok ldom gdom) as (pa & na & A1 & A2 & A3).
    { rewrite (local_dom_len m sb p ldom Hm El). exact Lm. }
    { exact Sn. }
    exists (pa ++ pts), (Nat.max n na). split; [|split].
    + intros fuel Hf. cbn [patches_points]. rewrite El, Eg. cbn [bind].
      rewrite A1 by lia. cbn [bind]. rewrite P1 by lia. reflexivity.
    + rewrite map_app. apply app_NoDup; auto. intros l H1 H2.
      rewrite in_map_iff in H1, H2. destruct H1 as ([l1 g1] & E1 & H1), H2 as ([l2 g2] & E2 & H2).
      cbn [fst] in *; subst l1 l2. apply A3 in H1 as (x & Hx & El' & _).
      apply P3 in H2 as (q & Hq & Hin & _).
      assert (in_map_local_patch m sb p l) by (exists ldom; split; [exact El|rewrite El'; apply nth_in_box, Hx]).
      destruct (proj1 (mp_defined m MP sb) Hsb) as (ext & Ee).
      assert (p = q) by (eapply (mp_local_tiles m MP sb ext Ee l); eassumption). lia.
    + intros l g. rewrite in_app_iff, A3, P3. split.
      * intros [(x & Hx & -> & ->)|(q & Hq & Hin & E)].
        -- exists p. split; [lia|]. split; [exists ldom; split; [exact El|apply nth_in_box, Hx]|].
           apply G. rewrite <- Sn. exact Hx.
        -- exists q. split; [lia|]. auto.
      * intros (q & Hq & Hin & E). destruct (Nat.eq_dec q p) as [->|Ne].
        -- left. destruct Hin as (d & Ed & Hd). assert (d = ldom) by congruence; subst d.
           destruct (in_box_nth _ _ Hd) as (x & Hx & ->). exists x. split; [exact Hx|]. split; [reflexivity|].
           assert (map_global_from_local_index m sb (domain_nth ldom x) = Some (domain_nth gdom x))
             by (apply G; rewrite <- Sn; exact Hx). congruence.
        -- right. exists q. split; [lia|]. auto.
Qed.

Lemma foreach_point_lemma m sb ext : map_ok m -> 1 <= length m <= 3 ->
  map_subblock_extent m sb = Some ext ->
  exists pts n, (forall fuel, n <= fuel -> foreach_point fuel m (Some sb) = Some pts) /\
    NoDup (map fst pts) /\
    (forall l g, In (l, g) pts <-> in_range ext l /\ map_global_from_local_index m sb l = Some g) /\
    (forall l, In l (map fst pts) <-> in_range ext l).
Proof.
  intros Hm Lm Ee. pose proof (map_partitioned_lemma m Hm) as MP.
  assert (Hsb : sb < map_num_subblocks m) by (apply (mp_defined m MP); eauto).
  destruct (mp_patches m MP sb Hsb) as (K & EK & HK).
  destruct (patches_points_ok m sb K Hm Lm Hsb EK K 0 eq_refl) as (pts & n & P1 & P2 & P3).
  assert (Q : forall l g, In (l, g) pts <-> in_range ext l /\ map_global_from_local_index m sb l = Some g).
  { intros l g. rewrite P3. split.
    - intros (q & _ & H & E). split; [|exact E]. apply (mp_local_tiles m MP sb ext Ee l). eauto.
    - intros [H E]. apply (mp_local_tiles m MP sb ext Ee l) in H as (q & H). exists q. split; [lia|auto]. }
  exists pts, n. split; [|split; [exact P2|split; [exact Q|]]].
  - intros fuel Hf. cbn [foreach_point]. rewrite EK. cbn [bind]. apply P1, Hf.
  - intros l. rewrite in_map_iff. split.
    + intros ([l' g] & E & H). cbn in E; subst. apply Q in H. tauto.
    + intros H. destruct (mp_back m MP sb ext l Ee H) as (g & G & _). exists (l, g). split; [reflexivity|].
      apply Q. auto.
Qed.

Lemma patches_from_ok m sb : map_ok m -> sb < map_num_subblocks m -> forall K, map_num_patches m sb = Some K ->
  forall k p, p + k = K -> exists l, patches_from m sb p k = Some l /\ length l = k /\
    forall j, j < k -> exists ld gd, nth_error l j = Some (ld, gd) /\
      map_local_domain m sb (p + j) = Some ld /\ map_global_domain m sb (p + j) = Some gd.
Proof.
  intros Hm Hsb K EK. pose proof (map_partitioned_lemma m Hm) as MP.
  destruct (mp_patches m MP sb Hsb) as (K' & EK' & HK). assert (K' = K) by congruence. subst K'. clear EK'.
  induction k as [|k IH]; intros p Hp.
  - exists []. repeat split. intros; lia.
  - destruct (IH (p + 1) ltac:(lia)) as (l & E & Ll & H).
    destruct (proj1 (HK p) ltac:(lia)) as (gdom & Eg).
    destruct (mp_patch_match m MP sb p gdom Eg) as (ldom & El & Sn & G).
    exists ((ldom, gdom) :: l). cbn [patches_from]. rewrite El, Eg. cbn [bind]. rewrite E. cbn [bind length].
    repeat split; [lia|]. intros [|j] Hj.
    + exists ldom, gdom. rewrite Nat.add_0_r. auto.
    + destruct (H j ltac:(lia)) as (ld & gd & N & A & B). exists ld, gd. cbn [nth_error].
      replace (p + S j) with (p + 1 + j) by lia. auto.
Qed.

Lemma foreach_patch_lemma m sb ext : map_ok m -> map_subblock_extent m sb = Some ext ->
  exists ps, foreach_patch m (Some sb) = Some ps /\
    (** every local index is in the local domain of exactly one call *)
    (forall l, in_range ext l <-> exists j ld gd, nth_error ps j = Some (ld, gd) /\ in_box ld l) /\
    (forall l j j' ld gd ld' gd', nth_error ps j = Some (ld, gd) -> in_box ld l ->
       nth_error ps j' = Some (ld', gd') -> in_box ld' l -> j' = j) /\
    (** and the global domain of the call is where these elements belong *)
    (forall ld gd, In (ld, gd) ps -> map snd ld = map snd gd /\
       forall x, in_range (map snd ld) x ->
         map_global_from_local_index m sb (domain_nth ld x) = Some (domain_nth gd x)).
Proof.
  intros Hm Ee. pose proof (map_partitioned_lemma m Hm) as MP.
  assert (Hsb : sb < map_num_subblocks m) by (apply (mp_defined m MP); eauto).
  destruct (mp_patches m MP sb Hsb) as (K & EK & HK).
  destruct (patches_from_ok m sb Hm Hsb K EK K 0 eq_refl) as (ps & E & L & H).
  assert (H' : forall j ld gd, nth_error ps j = Some (ld, gd) ->
    j < K /\ map_local_domain m sb j = Some ld /\ map_global_domain m sb j = Some gd).
  { intros j ld gd N. assert (j < length ps) by (apply nth_error_Some; congruence).
    destruct (H j ltac:(lia)) as (ld' & gd' & N' & A & B). cbn in A, B.
    assert (ld' = ld /\ gd' = gd) as [-> ->] by (split; congruence). split; [lia|auto]. }
  exists ps. split; [cbn [foreach_patch]; rewrite EK; exact E|]. split; [|split].
  - intros l. split.
    + intros Hl. apply (mp_local_tiles m MP sb ext Ee l) in Hl as (q & (d & Ed & Hd)).
      destruct (in_local_patch_home m sb q l Hm) as (e & g & _ & _ & _ & (gd & Eg & _)); [exists d; auto|].
      assert (Hq : q < K) by (apply HK; eauto).
      destruct (H q Hq) as (ld' & gd' & N & A & B). cbn in A, B. assert (ld' = d) by congruence; subst ld'.
      exists q, d, gd'. auto.
    + intros (j & ld & gd & N & B). apply H' in N as (_ & A & _).
      apply (mp_local_tiles m MP sb ext Ee l). exists j, ld. auto.
  - intros l j j' ld gd ld' gd' N B N' B'. apply H' in N as (_ & A & _). apply H' in N' as (_ & A' & _).
    eapply (mp_local_tiles m MP sb ext Ee l); [exists ld'|exists ld]; auto.
  - intros ld gd I. apply In_nth_error in I as (j & N). apply H' in N as (_ & A & B).
    destruct (mp_patch_match m MP sb j gd B) as (ld' & A' & Sn & G).
    assert (ld' = ld) by congruence; subst ld'. split; [exact Sn|]. rewrite Sn. exact G.
Qed.
