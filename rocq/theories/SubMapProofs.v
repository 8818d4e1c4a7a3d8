(** Lemmas for SubMap.v. *)
From Coq Require Import ZArith List Arith Lia Bool Sorted.
From Verif Require Import Base Dist DistProofs Traversal Map MapProofs Domain DomainProofs SubMap.
Import ListNotations.
Local Open Scope Z_scope.

(** ** Domains *)

Lemma intersect_empty a b : dom_ok a -> dstride a = 1 -> dlen a = 0 -> 0 < dfirst a ->
  dom_ok b -> 0 < dstride b -> 0 < dlen b -> intersect a b = Some None.
Proof.
  intros Ha Sa La Fa Hb Sb Lb.
  assert (El : impl_last a = dfirst a - 1).
  { unfold impl_last. rewrite La. unfold impl_nth. rewrite Sa, s64_u64, s64_small by (words; lia).
    rewrite u64_small; destruct Ha as (? & ? & ? & ?); words; lia. }
  unfold intersect. rewrite Sa. cbn [Z.eqb Pos.eqb]. cbv zeta. rewrite El.
  destruct (Z.eqb_spec (dstride b) 1) as [E|E].
  - destruct (Z.leb_spec (Z.max (dfirst a) (dfirst b)) (Z.min (dfirst a - 1) (impl_last b))); [lia|reflexivity].
  - destruct Hb as (B1 & B2 & B3 & B4). rewrite (u64_small (dstride b)) by (words; lia).
    destruct (Z.eqb_spec (dstride b) 0); [lia|]. cbn [negb].
    match goal with |- context [Z.leb ?x ?y] => destruct (Z.leb_spec x y); [lia|reflexivity] end.
Qed.

(** A patch box: unit stride, and if it is empty it does not start at 0. *)
Definition pgood (a : dom) : Prop := dom_ok a /\ dstride a = 1 /\ (0 < dlen a \/ 0 < dfirst a).
Definition dgood (d : dom) : Prop := dom_ok d /\ 0 < dstride d /\ 0 < dlen d.

Lemma indom_dec_unit a x : dstride a = 1 -> (indom a x <-> dfirst a <= x < dfirst a + dlen a).
Proof.
  intros S. split.
  - intros (i & Hi & ->). unfold idx. rewrite S. lia.
  - intros H. exists (x - dfirst a). split; [lia|]. unfold idx. rewrite S. lia.
Qed.

Lemma intersect_any a b : pgood a -> dgood b ->
  exists r, intersect a b = Some r /\
  match r with
  | None => forall x, ~ (indom a x /\ indom b x)
  | Some c => dom_ok c /\ 0 < dlen c /\ dstride c = dstride b /\
              (forall x, indom c x <-> indom a x /\ indom b x)
  end.
Proof.
  intros (A1 & A2 & A3) (B1 & B2 & B3).
  destruct (Z.ltb_spec 0 (dlen a)) as [L|L].
  - apply intersect_exact_lemma; assumption.
  - assert (L0 : dlen a = 0) by (destruct A1 as (? & ? & ? & ?); lia).
    exists None. split; [apply intersect_empty; try assumption; lia|].
    intros x [(i & Hi & _) _]. lia.
Qed.

Lemma idx_inj d i j : dstride d <> 0 -> idx d i = idx d j -> i = j.
Proof. unfold idx. intros H E. apply (Z.mul_reg_l _ _ (dstride d)); lia. Qed.

Lemma patch1 pg pl d : pgood pg -> dom_ok pl -> dstride pl = 1 -> dlen pl = dlen pg -> dgood d ->
  exists r, intersect pg d = Some r /\
  match r with
  | None => forall k, 0 <= k < dlen d -> ~ indom pg (idx d k)
  | Some c => exists mg pld, subset_from_intr d c = Some mg /\ apply_intr pl pg c = Some pld /\
      dstride mg = 1 /\ dom_ok mg /\ 0 < dlen mg /\ dlen c = dlen mg /\ dlen pld = dlen mg /\ dom_ok pld /\
      (forall k, indom mg k <-> 0 <= k < dlen d /\ indom pg (idx d k)) /\
      (forall j, 0 <= j < dlen mg -> exists p, 0 <= p < dlen pg /\ idx pg p = idx d (idx mg j) /\ idx pld j = idx pl p)
  end.
Proof.
  intros Hp O1 S1 L1 Hd. destruct (intersect_any pg d Hp Hd) as (r & E & R).
  destruct Hp as (P1 & P2 & P3), Hd as (D1 & D2 & D3).
  exists r. split; [exact E|]. destruct r as [c|].
  2:{ intros k Hk I. apply (R (idx d k)). split; [exact I|]. exists k. auto. }
  destruct R as (C1 & C2 & C3 & C4).
  destruct (subset_from_intr_lemma d c D1 C1 D2 C3 C2) as (mg & Em & Lm & Om & Pm).
  { intros z Hz. apply C4 in Hz. tauto. }
  assert (SB : - H64 < dstride pl * dstride c < H64).
  { rewrite S1. destruct C1 as (? & ? & ? & ?). lia. }
  destruct (apply_intr_lemma pl pg c O1 P1 C1 P2 L1 C2 SB) as (pld & Ep & Lp & Op & Pp).
  { intros z Hz. apply C4 in Hz. tauto. }
  exists mg, pld. split; [exact Em|]. split; [exact Ep|].
  assert (Sm : dstride mg = 1).
  { unfold subset_from_intr in Em. destruct (negb _); [|discriminate].
    unfold make in Em. destruct (impl_is_valid _); [|discriminate]. injection Em as <-. reflexivity. }
  split; [exact Sm|]. split; [exact Om|]. split; [lia|]. split; [lia|]. split; [lia|]. split; [exact Op|].
  split.
  - intros k. split.
    + intros (i & Hi & ->). rewrite Lm in Hi. destruct (Pm i Hi) as [Q1 Q2]. split; [exact Q1|].
      rewrite Q2. apply C4. exists i. auto.
    + intros [Hk I]. assert (J : indom c (idx d k)). { apply C4. split; [exact I|]. exists k. auto. }
      destruct J as (i & Hi & Ei). destruct (Pm i Hi) as [Q1 Q2].
      exists i. split; [lia|]. apply (idx_inj d); [lia|]. congruence.
  - intros j Hj. rewrite Lm in Hj. destruct (Pp j Hj) as (p & A & B & C). exists p. split; [exact A|]. split; [|exact C].
    rewrite B. symmetry. apply Pm. exact Hj.
Qed.

(** ** Several dimensions *)
Inductive good3 : list dom -> list dom -> list dom -> Prop :=
| good3_nil : good3 [] [] []
| good3_cons pg pl d a b c : pgood pg -> dom_ok pl -> dstride pl = 1 -> dlen pl = dlen pg -> dgood d ->
    good3 a b c -> good3 (pg :: a) (pl :: b) (d :: c).

Lemma indomD_cons d ds x : indomD (d :: ds) x <-> exists a b, x = a :: b /\ indom d a /\ indomD ds b.
Proof.
  unfold indomD. split.
  - intros H. inversion H as [|? a ? b H1 H2]. subst. eauto.
  - intros (a & b & -> & H1 & H2). constructor; assumption.
Qed.
Lemma posD_cons d ds x : posD (d :: ds) x <-> exists a b, x = a :: b /\ 0 <= a < dlen d /\ posD ds b.
Proof.
  unfold posD. split.
  - intros H. inversion H as [|? a ? b H1 H2]. subst. eauto.
  - intros (a & b & -> & H1 & H2). constructor; assumption.
Qed.
Lemma idxD_cons d ds a b : idxD (d :: ds) (a :: b) = idx d a :: idxD ds b.
Proof. reflexivity. Qed.

Definition sameL (a b : list dom) : Prop := Forall2 (fun x y => dlen x = dlen y) a b.

Lemma patchD pg pl dm : good3 pg pl dm ->
  exists r, intersectD pg dm = Some r /\
  match r with
  | None => forall k, posD dm k -> ~ indomD pg (idxD dm k)
  | Some c => exists mg pld, subset_from_intrD dm c = Some mg /\ apply_intrD pl pg c = Some pld /\
      Forall (fun g => dstride g = 1 /\ dom_ok g /\ 0 < dlen g) mg /\ sameL c mg /\ sameL pld mg /\ Forall dom_ok pld /\
      (forall k, indomD mg k <-> posD dm k /\ indomD pg (idxD dm k)) /\
      (forall j, posD mg j -> exists p, posD pg p /\ idxD pg p = idxD dm (idxD mg j) /\ idxD pld j = idxD pl p)
  end.
Proof.
  induction 1 as [|pg pl d a b c H1 H2 H3 H4 H5 H6 (rs & Es & Rs)].
  - exists (Some []). split; [reflexivity|]. exists [], []. do 2 (split; [reflexivity|]).
    do 4 (split; [constructor|]). split.
    + intros k. unfold indomD, posD. split.
      * intros H. inversion H. split; constructor.
      * intros (H & _). inversion H. constructor.
    + intros j Hj. inversion Hj. exists []. repeat split. constructor.
  - destruct (patch1 pg pl d H1 H2 H3 H4 H5) as (r & E & R). cbn [intersectD]. rewrite E. cbn [bind].
    destruct r as [c0|].
    2:{ exists None. split; [reflexivity|]. intros k Hk I. apply posD_cons in Hk as (x & y & -> & K1 & K2).
        rewrite idxD_cons in I. apply indomD_cons in I as (x' & y' & [= <- <-] & I1 & I2). exact (R x K1 I1). }
    rewrite Es. cbn [bind]. destruct rs as [cs|].
    2:{ exists None. split; [reflexivity|]. intros k Hk I. apply posD_cons in Hk as (x & y & -> & K1 & K2).
        rewrite idxD_cons in I. apply indomD_cons in I as (x' & y' & [= <- <-] & I1 & I2). exact (Rs y K2 I2). }
    exists (Some (c0 :: cs)). split; [reflexivity|].
    destruct R as (mg & pld & R1 & R2 & R3 & R4 & R5 & R6 & R7 & R7b & R8 & R9).
    destruct Rs as (mgs & plds & S1 & S2 & S3 & S4 & S5 & S5b & S6 & S7).
    exists (mg :: mgs), (pld :: plds). cbn [subset_from_intrD apply_intrD]. rewrite R1, R2. cbn [bind]. rewrite S1, S2. cbn [bind].
    split; [reflexivity|]. split; [reflexivity|]. split; [constructor; auto|]. split; [constructor; assumption|].
    split; [constructor; assumption|]. split; [constructor; assumption|]. split.
    + intros k. rewrite indomD_cons, posD_cons. split.
      * intros (x & y & -> & X & Y). apply R8 in X. apply S6 in Y. rewrite idxD_cons, indomD_cons.
        split; [exists x, y; tauto|]. eexists _, _. split; [reflexivity|]. tauto.
      * intros [(x & y & -> & X & Y) I]. rewrite idxD_cons in I. apply indomD_cons in I as (x' & y' & [= <- <-] & I1 & I2).
        exists x, y. rewrite R8, S6. tauto.
    + intros j Hj. apply posD_cons in Hj as (x & y & -> & X & Y). destruct (R9 x X) as (p & P1 & P2 & P3).
      destruct (S7 y Y) as (q & Q1 & Q2 & Q3). exists (p :: q). rewrite posD_cons, !idxD_cons. split; [eauto|].
      split; congruence.
Qed.

(** ** The constructor *)
Record entry_of (dm : list dom) (x : sbinfo) (pg pl : list dom) (e : sub_entry) : Prop := {
  eo_proc : se_proc e = si_proc x;
  eo_ext : se_ext e = si_ext x;
  eo_gd : Forall (fun g => dstride g = 1 /\ dom_ok g /\ 0 < dlen g) (se_gd e);
  eo_ld : se_ld e = map normalize (se_gd e);
  eo_mem : forall k, indomD (se_gd e) k <-> posD dm k /\ indomD pg (idxD dm k);
  eo_pld : exists intr pld, intersectD pg dm = Some (Some intr) /\ apply_intrD pl pg intr = Some pld /\
     sameL pld (se_gd e) /\ Forall dom_ok pld /\
     (forall j, posD (se_gd e) j -> exists p, posD pg p /\ idxD pg p = idxD dm (idxD (se_gd e) j) /\ idxD pld j = idxD pl p)
}.

Lemma normalize_sameL a b : sameL a b -> map normalize a = map normalize b.
Proof. induction 1 as [|x y a b H _ IH]; cbn; [reflexivity|]. unfold normalize at 1 3. rewrite H, IH. reflexivity. Qed.

Lemma sub_entries_ok dm : forall pm sb,
  Forall (fun x => exists pg pl, si_patches x = [(pg, pl)] /\ good3 pg pl dm) pm ->
  exists sm, sub_entries dm sb pm = Some sm /\
    (forall e, In e sm -> (sb <= se_parent e)%nat /\ exists x pg pl,
        nth_error pm (se_parent e - sb) = Some x /\ si_patches x = [(pg, pl)] /\ entry_of dm x pg pl e) /\
    StronglySorted (fun a b => (se_parent a < se_parent b)%nat) sm /\
    (forall n x pg pl k, nth_error pm n = Some x -> si_patches x = [(pg, pl)] -> posD dm k ->
        indomD pg (idxD dm k) -> exists e, In e sm /\ se_parent e = (sb + n)%nat).
Proof.
  induction pm as [|x pm IH]; intros sb H.
  - exists []. split; [reflexivity|]. split; [intros e []|]. split; [constructor|].
    intros [|n] x pg pl k E; discriminate.
  - inversion H as [|? ? (pg & pl & Ex & G) H']. subst.
    destruct (IH (sb + 1)%nat H') as (sm & Es & I1 & I2 & I3).
    cbn [sub_entries]. rewrite Ex. cbn [sub_patches].
    destruct (patchD pg pl dm G) as (r & Er & R). rewrite Er. cbn [bind].
    assert (Old : forall e, In e sm -> (sb + 1 <= se_parent e)%nat /\ exists x0 pg pl,
        nth_error (x :: pm) (se_parent e - sb) = Some x0 /\ si_patches x0 = [(pg, pl)] /\ entry_of dm x0 pg pl e).
    { intros e He. destruct (I1 e He) as (L & x' & pg' & pl' & A & B & C). split; [lia|].
      exists x', pg', pl'. replace (se_parent e - sb)%nat with (S (se_parent e - (sb + 1)))%nat by lia. auto. }
    destruct r as [c|].
    + destruct R as (mg & pld & R1 & R2 & R3 & R4 & R5 & R5b & R6 & R7). rewrite R1, R2. cbn [bind]. rewrite Es. cbn [bind].
      exists (mksub mg (map normalize c) (si_ext x) (si_proc x) sb :: sm). split; [reflexivity|].
      split; [|split].
      * intros e [<- | He]; cbn [se_parent].
        -- split; [lia|]. exists x, pg, pl. rewrite Nat.sub_diag. split; [reflexivity|]. split; [exact Ex|].
           constructor; cbn [se_gd se_ld se_proc se_ext]; auto.
           ++ apply normalize_sameL. exact R4.
           ++ exists c, pld. auto.
        -- destruct (Old e He) as (L & Q). split; [lia|exact Q].
      * constructor; [exact I2|]. apply Forall_forall. intros e He. cbn [se_parent]. destruct (Old e He) as (L & _). lia.
      * intros [|n] x' pg' pl' k E E2 P Q.
        -- exists (mksub mg (map normalize c) (si_ext x) (si_proc x) sb). split; [left; reflexivity|cbn; lia].
        -- destruct (I3 n x' pg' pl' k E E2 P Q) as (e & He & Pe). exists e. split; [right; exact He|lia].
    + cbn [bind]. exists sm. split; [exact Es|]. split; [|split].
      * intros e He. destruct (Old e He) as (L & Q). split; [lia|exact Q].
      * exact I2.
      * intros [|n] x' pg' pl' k E E2 P Q.
        -- injection E as <-. rewrite Ex in E2. injection E2 as <- <-. destruct (R k P Q).
        -- destruct (I3 n x' pg' pl' k E E2 P Q) as (e & He & Pe). exists e. split; [exact He|lia].
Qed.

(** ** The parent map *)
Local Open Scope nat_scope.

Lemma block_patch d n sb : dist_ok d = true -> kind d <> 2 -> sb < num_subblocks d -> 0 < n ->
  subblock_patches d n sb = Some 1 /\ exists f l, patch_global_dom d n sb 0 = Some (f, l) /\
    patch_local_dom d n sb 0 = Some (0, l) /\ (0 < l \/ 0 < f) /\ f + l <= n.
Proof.
  intros Hd K L Hn. destruct d as [|num|num c]; cbn in K, L; [| |congruence].
  - assert (sb = 0) by lia. subst. cbn. split; [reflexivity|]. exists 0, n. repeat split; lia.
  - cbn [subblock_patches patch_global_dom patch_local_dom]. assert (sb <? num = true) as -> by (apply Nat.ltb_lt; exact L).
    cbn [Nat.eqb]. split; [reflexivity|]. unfold segment_start, segment_size_block, cdiv, cmod.
    destruct (Nat.eqb_spec num 0); [lia|]. cbn [bind].
    exists (sb * (n / num) + Nat.min sb (n mod num)), (n / num + (if sb <? n mod num then 1 else 0)).
    split; [reflexivity|]. split; [reflexivity|].
    pose proof (Nat.div_mod n num ltac:(assumption)) as E.
    pose proof (Nat.mod_upper_bound n num ltac:(assumption)) as B.
    set (q := n / num) in *. set (r := n mod num) in *.
    assert ((sb + 1) * q <= num * q) by (apply Nat.mul_le_mono_r; lia).
    destruct (Nat.ltb_spec sb r) as [X|X].
    + split; [lia|]. lia.
    + split; [|lia]. destruct q as [|q]; [|lia]. right. lia.
Qed.

Lemma map_patches m dm sbs : map_ok m -> Forall (fun d => kind (fst d) <> 2) m -> sub_of (ext_of m) dm ->
  Forall2 lt sbs (subblocks m) ->
  exists ones gd ld, patch_counts m sbs = Some ones /\ prod ones = 1 /\ Forall2 lt (map (fun _ => 0) ones) ones /\
    horner 0 ones (map (fun _ => 0) ones) = 0 /\
    omap2 (pdm patch_global_dom) (combine m sbs) (map (fun _ => 0) ones) = Some gd /\
    omap2 (pdm patch_local_dom) (combine m sbs) (map (fun _ => 0) ones) = Some ld /\
    good3 (map zdom gd) (map zdom ld) dm.
Proof.
  revert dm sbs; induction m as [|[d n] m IH]; intros dm sbs Hm K S L; inversion L as [|sb ? sbs' ? L1 L2]; subst; clear L.
  - inversion S; subst. exists [], [], []. repeat split; constructor.
  - inversion Hm as [|? ? M1 M2]. inversion K as [|? ? K1 K2]. inversion S as [|? a ? dm' S1 S2]. subst. cbn [fst snd] in *.
    destruct S1 as (N1 & O1 & P1 & P2 & P3).
    assert (N0 : 0 < n). { destruct n; [|lia]. specialize (P3 _ (indom_first a P2)). destruct O1 as (? & ? & ? & ?). lia. }
    destruct (block_patch d n sb M1 K1 L1 N0) as (C & f & l & G & Lo & NE & B).
    destruct (IH dm' sbs' M2 K2 S2 L2) as (ones & gd & ld & I1 & I2 & I3 & I4 & I5 & I6 & I7).
    exists (1 :: ones), ((f, l) :: gd), ((0, l) :: ld). unfold patch_counts in *. cbn [omap2 fst snd map combine].
    rewrite C, I1. cbn [bind]. split; [reflexivity|]. split; [cbn [prod fold_right]; fold (prod ones); lia|].
    split; [constructor; [lia|exact I3]|]. split; [cbn [horner]; exact I4|].
    unfold pdm at 1. cbn [fst snd]. rewrite G, I5. cbn [bind]. split; [reflexivity|].
    unfold pdm at 1. cbn [fst snd]. rewrite Lo, I6. cbn [bind]. split; [reflexivity|].
    assert (Z0 : (Z.of_nat (f + l) < H64)%Z) by lia.
    assert (Da : dgood a) by (split; [exact O1|]; split; assumption).
    constructor; auto; unfold pgood, dom_ok, zdom, idx; cbn [dfirst dstride dlen fst snd]; try lia; repeat split; lia.
Qed.

(** One parent subblock. *)
Lemma sbinfo_ok u lens m dm sb : built u -> no_cyclic u -> apply_map u lens = Some m -> sub_of lens dm ->
  sb < map_num_subblocks m ->
  exists gd ld pr ext, map_num_patches m sb = Some 1 /\ map_global_domain m sb 0 = Some gd /\ map_local_domain m sb 0 = Some ld /\
    nth_error (u_pvec u) sb = Some pr /\ map_subblock_extent m sb = Some ext /\
    map_sbinfo m (u_pvec u) sb = Some (mksb [(map zdom gd, map zdom ld)] pr (map Z.of_nat ext)) /\
    good3 (map zdom gd) (map zdom ld) dm.
Proof.
  intros [B1 B2] N A S L. destruct (apply_num u lens m A) as [Em En].
  assert (Le : length lens <= length (u_d u)).
  { unfold apply_map in A. destruct (Nat.leb_spec (length lens) (length (u_d u))); [assumption|discriminate]. }
  assert (Hm : map_ok m /\ Forall (fun d => kind (fst d) <> 2) m).
  { rewrite Em. clear - B1 N. unfold map_ok, no_cyclic in *. revert lens. generalize (u_d u) B1 N. clear B1 N.
    intros ds B N. assert (X : forall k (lens : list nat), Forall (fun d => dist_ok (fst d) = true) (combine (firstn k ds) lens) /\ Forall (fun d => kind (fst d) <> 2) (combine (firstn k ds) lens)).
    { induction ds as [|d ds IH]; intros [|k] [|n lens]; cbn; split; constructor; inversion B; inversion N; subst; cbn; auto; apply IH; auto. }
    intros lens. apply X. }
  destruct Hm as [Hm Hk].
  assert (Ee : ext_of m = lens).
  { rewrite Em. clear - Le. revert Le. generalize (u_d u). induction lens as [|n lens IH]; intros [|d ds] Le; cbn in *; try lia; try reflexivity.
    f_equal. apply IH. lia. }
  rewrite <- Ee in S.
  destruct (split_tuple_total (subblocks m) sb L) as (sbs & S1 & S2 & S3).
  destruct (map_patches m dm sbs Hm Hk S S1) as (ones & gd & ld & C1 & C2 & C3 & C4 & C5 & C6 & C7).
  assert (G : forall f, patch_dom f m sb 0 = omap2 (pdm f) (combine m sbs) (map (fun _ => 0) ones)).
  { intros f. pose proof (patch_dom_ok f m sbs ones _ S1 C1 C3) as X. rewrite S3, C4 in X. exact X. }
  assert (Np : map_num_patches m sb = Some 1).
  { rewrite <- S3, (num_patches_ok m sbs ones S1 C1), C2. reflexivity. }
  destruct (proj1 (mp_defined m (map_partitioned_lemma m Hm) sb) L) as (ext & Ex).
  destruct (nth_error (u_pvec u) sb) as [pr|] eqn:Ep.
  2:{ apply nth_error_None in Ep. lia. }
  exists gd, ld, pr, ext. split; [exact Np|]. unfold map_global_domain, map_local_domain. rewrite !G.
  split; [exact C5|]. split; [exact C6|]. split; [reflexivity|]. split; [exact Ex|]. split; [|exact C7].
  unfold map_sbinfo. rewrite Np. cbn [bind patches_from]. unfold map_global_domain, map_local_domain.
  rewrite !G, C5, C6, Ep, Ex. reflexivity.
Qed.

Lemma sbinfos_ok m pvec : forall n sb, (forall s, sb <= s < sb + n -> exists x, map_sbinfo m pvec s = Some x) ->
  exists pm, map_sbinfos m pvec sb n = Some pm /\ length pm = n /\
    forall i, i < n -> nth_error pm i = map_sbinfo m pvec (sb + i).
Proof.
  induction n as [|n IH]; intros sb H.
  - exists []. repeat split. intros i Hi. lia.
  - destruct (H sb ltac:(lia)) as (x & Ex). destruct (IH (sb + 1)) as (pm & Ep & Lp & Np). { intros s Hs. apply H. lia. }
    exists (x :: pm). cbn [map_sbinfos]. rewrite Ex, Ep. cbn [bind]. split; [reflexivity|]. split; [cbn; lia|].
    intros [|i] Hi; cbn [nth_error]; [rewrite Nat.add_0_r; auto|]. rewrite Np by lia. f_equal. lia.
Qed.

Lemma no_cyclic_test u lens m : no_cyclic u -> apply_map u lens = Some m -> forallb (fun d => negb (kind (fst d) =? 2)) m = true.
Proof.
  intros N A. destruct (apply_num u lens m A) as [-> _]. unfold no_cyclic in N. revert N. generalize (u_d u). intros ds N.
  apply forallb_forall. intros [d n] H. apply in_combine_l in H. assert (In d ds). { rewrite <- (firstn_skipn (length lens) ds). apply in_or_app. auto. }
  cbn. rewrite Forall_forall in N. specialize (N d H0). destruct (Nat.eqb_spec (kind d) 2); [contradiction|reflexivity].
Qed.

(** From the numbers of a box to tuples of naturals. *)
Lemma zdom_nth gd p : posD (map zdom gd) p -> exists x, in_range (map snd gd) x /\
  idxD (map zdom gd) p = map Z.of_nat (domain_nth gd x) /\ p = map Z.of_nat x.
Proof.
  revert p; induction gd as [|[f l] gd IH]; intros p H.
  - inversion H. exists []. repeat split. constructor.
  - cbn [map] in *. apply posD_cons in H as (a & b & -> & Ha & Hb). destruct (IH b Hb) as (x & X1 & X2 & X3).
    unfold zdom in Ha; cbn [fst snd dlen] in Ha. exists (Z.to_nat a :: x). split; [constructor; [cbn; lia|exact X1]|].
    rewrite idxD_cons, X2. unfold domain_nth. cbn [combine map fst snd]. split.
    + f_equal. unfold zdom, idx. cbn [fst snd dfirst dstride]. lia.
    + cbn [map]. rewrite X3. f_equal. lia.
Qed.

Lemma zdom_in gd g : indomD (map zdom gd) (map Z.of_nat g) -> in_box gd g.
Proof.
  revert g; induction gd as [|[f l] gd IH]; intros [|x g] H; inversion H; subst; [constructor|].
  constructor; [|apply IH; assumption]. destruct H3 as (i & Hi & E). unfold zdom, idx in *. cbn [fst snd dfirst dlen dstride] in *. lia.
Qed.
Lemma in_zdom gd g : in_box gd g -> indomD (map zdom gd) (map Z.of_nat g).
Proof.
  revert g; induction gd as [|[f l] gd IH]; intros [|x g] H; inversion H; subst; [constructor|].
  constructor; [|apply IH; assumption]. cbn [fst snd] in *. exists (Z.of_nat x - Z.of_nat f)%Z. unfold zdom, idx. cbn [fst snd dfirst dlen dstride]. lia.
Qed.

Lemma sub_nat lens dm k : sub_of lens dm -> posD dm k -> exists g, in_range lens g /\ idxD dm k = map Z.of_nat g.
Proof.
  intros H; revert k; induction H as [|n d lens dm (N1 & O & P1 & P2 & P3) _ IH]; intros k Hk.
  - inversion Hk. exists []. split; constructor.
  - apply posD_cons in Hk as (a & b & -> & Ha & Hb). destruct (IH b Hb) as (g & G1 & G2).
    assert (X : indom d (idx d a)) by (exists a; auto). apply P3 in X.
    assert (Y : (0 <= idx d a)%Z). { unfold idx. destruct O as (? & ? & ? & ?). nia. }
    exists (Z.to_nat (idx d a) :: g). split; [constructor; [lia|exact G1]|]. rewrite idxD_cons, G2. cbn [map]. f_equal. lia.
Qed.

Lemma map_of_nat_inj a : forall b, map Z.of_nat a = map Z.of_nat b -> a = b.
Proof. induction a as [|x a IH]; intros [|y b] H; cbn in H; try discriminate; [reflexivity|]. injection H as H1 H2. f_equal; [lia|auto]. Qed.

Lemma idxD_inj dm : Forall (fun d => dstride d <> 0%Z) dm -> forall j k, posD dm j -> posD dm k -> idxD dm j = idxD dm k -> j = k.
Proof.
  induction 1 as [|d dm H _ IH]; intros j k J K E.
  - inversion J. inversion K. reflexivity.
  - apply posD_cons in J as (a & b & -> & _ & J). apply posD_cons in K as (a' & b' & -> & _ & K).
    rewrite !idxD_cons in E. injection E as E1 E2. f_equal; [eapply idx_inj; eassumption|auto].
Qed.

Lemma sorted_unique {A} (f : A -> nat) l : StronglySorted (fun a b => f a < f b) l -> forall i j a b,
  nth_error l i = Some a -> nth_error l j = Some b -> f a = f b -> i = j.
Proof.
  induction 1 as [|x l S IH F]; intros i j a b Ei Ej E.
  - destruct i; discriminate.
  - rewrite Forall_forall in F. destruct i as [|i], j as [|j]; cbn in *.
    + reflexivity.
    + injection Ei as <-. apply nth_error_In in Ej. specialize (F _ Ej). lia.
    + injection Ej as <-. apply nth_error_In in Ei. specialize (F _ Ei). lia.
    + f_equal. eapply IH; eassumption.
Qed.

Lemma in_idxD d k : posD d k -> indomD d (idxD d k).
Proof.
  revert k; induction d as [|a d IH]; intros k H; [inversion H; constructor|].
  apply posD_cons in H as (x & y & -> & H1 & H2). rewrite idxD_cons. apply indomD_cons. eexists _, _. split; [reflexivity|].
  split; [exists x; auto|auto].
Qed.

(** The shape of a subset_map of a Map. *)
Lemma subset_map_shape u lens m dm : built u -> no_cyclic u -> apply_map u lens = Some m -> sub_of lens dm ->
  exists sm, subset_map m (u_pvec u) dm = Some sm /\
    StronglySorted (fun a b => se_parent a < se_parent b) sm /\
    (forall e, In e sm -> se_parent e < map_num_subblocks m /\ exists gd ld ext,
        map_num_patches m (se_parent e) = Some 1 /\
        map_global_domain m (se_parent e) 0 = Some gd /\ map_local_domain m (se_parent e) 0 = Some ld /\
        nth_error (u_pvec u) (se_parent e) = Some (se_proc e) /\ map_subblock_extent m (se_parent e) = Some ext /\
        entry_of dm (mksb [(map zdom gd, map zdom ld)] (se_proc e) (map Z.of_nat ext)) (map zdom gd) (map zdom ld) e) /\
    (forall sb gd k, sb < map_num_subblocks m -> map_global_domain m sb 0 = Some gd -> posD dm k ->
        indomD (map zdom gd) (idxD dm k) -> exists e, In e sm /\ se_parent e = sb).
Proof.
  intros B N A S. unfold subset_map. rewrite (no_cyclic_test u lens m N A).
  destruct (sbinfos_ok m (u_pvec u) (map_num_subblocks m) 0) as (pm & Ep & Lp & Np).
  { intros s Hs. destruct (sbinfo_ok u lens m dm s B N A S ltac:(lia)) as (gd & ld & pr & ext & _ & _ & _ & _ & _ & E & _). eauto. }
  rewrite Ep. cbn [bind].
  destruct (sub_entries_ok dm pm 0) as (sm & Es & I1 & I2 & I3).
  { apply Forall_forall. intros x Hx. apply In_nth_error in Hx as (i & Hi).
    assert (Li : i < map_num_subblocks m). { rewrite <- Lp. apply nth_error_Some. congruence. }
    destruct (sbinfo_ok u lens m dm i B N A S Li) as (gd & ld & pr & ext & _ & _ & _ & _ & _ & E & G).
    rewrite Np in Hi by exact Li. cbn [Nat.add] in Hi. rewrite E in Hi. injection Hi as <-. eexists _, _. split; [reflexivity|exact G]. }
  exists sm. split; [exact Es|]. split; [exact I2|]. split.
  - intros e He. destruct (I1 e He) as (_ & x & pg & pl & X1 & X2 & X3). rewrite Nat.sub_0_r in X1.
    assert (Li : se_parent e < map_num_subblocks m). { rewrite <- Lp. apply nth_error_Some. congruence. }
    split; [exact Li|]. destruct (sbinfo_ok u lens m dm (se_parent e) B N A S Li) as (gd & ld & pr & ext & E0 & E1 & E2 & E3 & E4 & E & G).
    rewrite Np in X1 by exact Li. cbn [Nat.add] in X1. rewrite E in X1. injection X1 as <-. cbn in X2. injection X2 as <- <-.
    assert (Pr : se_proc e = pr) by (apply (eo_proc _ _ _ _ _ X3)).
    exists gd, ld, ext. rewrite Pr. auto 8.
  - intros sb gd k L G P Q. destruct (sbinfo_ok u lens m dm sb B N A S L) as (gd' & ld & pr & ext & E0 & E1 & E2 & E3 & E4 & E & _).
    assert (gd' = gd) by congruence. subst gd'.
    destruct (I3 sb (mksb [(map zdom gd, map zdom ld)] pr (map Z.of_nat ext)) (map zdom gd) (map zdom ld) k) as (e & He & Pe); auto.
    { rewrite Np by exact L. exact E. }
    exists e. split; [exact He|exact Pe].
Qed.

Lemma apply_map_ok u lens m : built u -> apply_map u lens = Some m -> map_ok m /\ ext_of m = lens.
Proof.
  intros [B _] A. pose proof A as A'. destruct (apply_num u lens m A) as [-> _].
  unfold apply_map in A'. destruct (Nat.leb_spec (length lens) (length (u_d u))) as [Le|]; [clear A'|discriminate]. clear A.
  revert B Le. generalize (u_d u). unfold map_ok. induction lens as [|n lens IH]; intros [|d ds] B Le; cbn in *; try lia; try (split; [constructor|reflexivity]).
  inversion B; subst. destruct (IH ds H2 ltac:(lia)) as [I1 I2]. split; [constructor; auto|]. unfold ext_of in *. cbn. f_equal. exact I2.
Qed.

(** A local patch position and its global position are one placement. *)
Lemma patch_placed u lens m sb pr gd ld x : built u -> apply_map u lens = Some m -> nth_error (u_pvec u) sb = Some pr ->
  sb < map_num_subblocks m ->
  map_global_domain m sb 0 = Some gd -> map_local_domain m sb 0 = Some ld -> in_range (map snd gd) x ->
  placed u lens (domain_nth gd x) pr (domain_nth ld x).
Proof.
  intros B A P L G Lo X. destruct (apply_map_ok u lens m B A) as [Hm _]. pose proof (map_partitioned_lemma m Hm) as MP.
  destruct (mp_patch_match m MP sb 0 gd G) as (ld' & L1 & L2 & L3). assert (ld' = ld) by congruence. subst ld'.
  destruct (proj1 (mp_defined m MP sb) L) as (ext & Ex).
  assert (IR : in_range ext (domain_nth ld x)).
  { apply (mp_local_tiles m MP sb ext Ex). exists 0. exists ld. split; [exact Lo|]. apply nth_in_box. rewrite L2. exact X. }
  destruct (mp_back m MP sb ext _ Ex IR) as (g & G1 & G2 & G3 & G4). rewrite (L3 x X) in G1. injection G1 as <-.
  exists m, sb, [pr]. split; [exact A|]. split; [exact G3|]. split; [|split; [left; reflexivity|exact G4]].
  unfold map_processors. assert (sb <? map_num_subblocks m = true) as -> by (apply Nat.ltb_lt; exact L).
  rewrite Nat.mod_small by exact L. rewrite P. reflexivity.
Qed.

Lemma posD_len_eq a b k : sameL a b -> posD a k -> posD b k.
Proof.
  intros H; revert k; induction H as [|x y a b E _ IH]; intros k K; [exact K|].
  apply posD_cons in K as (p & q & -> & K1 & K2). apply posD_cons. exists p, q. rewrite <- E. auto.
Qed.
Lemma sameL_dlen a b : sameL a b -> map dlen a = map dlen b.
Proof. induction 1; cbn; congruence. Qed.
Lemma norm_idx d k : posD d k -> idxD (map normalize d) k = k.
Proof.
  revert k; induction d as [|a d IH]; intros k H; [inversion H; reflexivity|].
  cbn [map]. apply posD_cons in H as (x & y & -> & H1 & H2). rewrite idxD_cons, IH by exact H2. f_equal.
  unfold idx, normalize. cbn [dfirst dstride]. lia.
Qed.
Lemma norm_len d : map dlen (map normalize d) = map dlen d.
Proof. rewrite map_map. apply map_ext. reflexivity. Qed.

Lemma dom_ok_stride dm lens : sub_of lens dm -> Forall (fun d => dstride d <> 0%Z) dm.
Proof. induction 1 as [|n d lens dm (_ & _ & P & _) _ IH]; constructor; [lia|exact IH]. Qed.

Lemma good3_len pg pl dm : good3 pg pl dm -> sameL pl pg.
Proof. induction 1; constructor; assumption. Qed.

(** The local domain of an entry, with the placement of its elements. *)
Lemma entry_local u lens m dm e gd ld ext :
  built u -> apply_map u lens = Some m -> sub_of lens dm -> se_parent e < map_num_subblocks m ->
  map_num_patches m (se_parent e) = Some 1 ->
  map_global_domain m (se_parent e) 0 = Some gd -> map_local_domain m (se_parent e) 0 = Some ld ->
  nth_error (u_pvec u) (se_parent e) = Some (se_proc e) -> map_subblock_extent m (se_parent e) = Some ext ->
  entry_of dm (mksb [(map zdom gd, map zdom ld)] (se_proc e) (map Z.of_nat ext)) (map zdom gd) (map zdom ld) e ->
  exists L, local_from_global_domain m (se_parent e) dm = Some L /\ map dlen L = map dlen (se_gd e) /\
    forall j, posD (se_gd e) j -> posD dm (idxD (se_gd e) j) /\ exists g l,
      map Z.of_nat g = idxD dm (idxD (se_gd e) j) /\ map Z.of_nat l = idxD L j /\ placed u lens g (se_proc e) l.
Proof.
  intros B A S Li E0 E1 E2 E3 E4 EO. destruct (eo_pld _ _ _ _ _ EO) as (intr & pld & I1 & I2 & I3 & I3b & I4).
  exists pld. split.
  { unfold local_from_global_domain. assert (se_parent e <? map_num_subblocks m = true) as -> by (apply Nat.ltb_lt; exact Li).
    rewrite E0. cbn [bind Nat.eqb]. rewrite E1, E2. cbn [bind]. rewrite I1. cbn [bind]. exact I2. }
  split; [apply sameL_dlen, I3|]. intros j Hj.
  assert (Pj : posD dm (idxD (se_gd e) j)) by (apply (eo_mem _ _ _ _ _ EO), in_idxD, Hj).
  split; [exact Pj|]. destruct (I4 j Hj) as (p & P1 & P2 & P3).
  destruct (zdom_nth gd p P1) as (x & X1 & X2 & X3).
  exists (domain_nth gd x), (domain_nth ld x). split; [congruence|]. split.
  - rewrite P3. subst p. destruct (apply_map_ok u lens m B A) as [Hm _].
    destruct (mp_patch_match m (map_partitioned_lemma m Hm) (se_parent e) 0 gd E1) as (ld' & L1 & L2 & _).
    assert (ld' = ld) by congruence. subst ld'. rewrite <- L2 in X1. clear - X1. revert x X1.
    induction ld as [|[f l] ld IH]; intros x X; inversion X; subst; [reflexivity|].
    unfold domain_nth. cbn [map combine fst snd]. rewrite idxD_cons. f_equal; [|apply IH; assumption].
    unfold zdom, idx. cbn [fst snd dfirst dstride]. lia.
  - apply (patch_placed u lens m (se_parent e)); assumption.
Qed.

Lemma subview_lemma u lens m dm : built u -> no_cyclic u -> apply_map u lens = Some m -> sub_of lens dm ->
  exists sm, subset_map m (u_pvec u) dm = Some sm /\
   (forall k, posD dm k -> exists i e, nth_error sm i = Some e /\ indomD (se_gd e) k /\
      forall i' e', nth_error sm i' = Some e' -> indomD (se_gd e') k -> i' = i) /\
   (forall i e, nth_error sm i = Some e -> exists L,
      local_from_global_domain m (se_parent e) dm = Some L /\
      map dlen L = map dlen (se_gd e) /\ map dlen (se_ld e) = map dlen (se_gd e) /\
      forall j, posD (se_gd e) j -> idxD (se_ld e) j = j /\ posD dm (idxD (se_gd e) j) /\
        exists g l, map Z.of_nat g = idxD dm (idxD (se_gd e) j) /\ map Z.of_nat l = idxD L j /\
          placed u lens g (se_proc e) l).
Proof.
  intros B N A S. destruct (subset_map_shape u lens m dm B N A S) as (sm & Es & I1 & I2 & I3).
  destruct (apply_map_ok u lens m B A) as [Hm He]. pose proof (map_partitioned_lemma m Hm) as MP.
  exists sm. split; [exact Es|]. split.
  - intros k Hk. destruct (sub_nat lens dm k S Hk) as (g & G1 & G2). rewrite <- He in G1.
    destruct (mp_home m MP g G1) as (sb & p & l & ext & H1 & H2 & H3 & H4 & H5 & _).
    assert (p = 0).
    { destruct (sbinfo_ok u lens m dm sb B N A S H2) as (gd & ld & pr & ext' & Np & _).
      destruct H4 as (dd & Hd & _). destruct (mp_patches m MP sb H2) as (k' & Q1 & Q2). assert (k' = 1) by congruence. subst.
      assert (p < 1) by (apply Q2; eauto). lia. }
    subst p. destruct H4 as (gd & Gd & Gin).
    destruct (I3 sb gd k H2 Gd Hk) as (e & He' & Pe). { rewrite G2. apply in_zdom, Gin. }
    destruct (In_nth_error _ _ He') as (i & Hi). exists i, e. split; [exact Hi|].
    destruct (I2 e He') as (Li & gd' & ld & ext' & E0 & E1 & E2 & E3 & E4 & EO).
    split.
    + apply (eo_mem _ _ _ _ _ EO). split; [exact Hk|]. assert (gd' = gd) by congruence. subst. rewrite G2. apply in_zdom, Gin.
    + intros i' e' Hi' Ig. apply nth_error_In in Hi' as Hin'. destruct (I2 e' Hin') as (Li' & gd2 & ld2 & ext2 & F0 & F1 & F2 & F3 & F4 & FO).
      apply (eo_mem _ _ _ _ _ FO) in Ig as [_ Ig]. rewrite G2 in Ig. apply zdom_in in Ig.
      destruct (H5 (se_parent e') 0) as [X _]. { exists gd2. auto. }
      apply (sorted_unique se_parent sm I1 i' i e' e Hi' Hi). congruence.
  - intros i e Hi. apply nth_error_In in Hi. destruct (I2 e Hi) as (Li & gd & ld & ext & E0 & E1 & E2 & E3 & E4 & EO).
    destruct (entry_local u lens m dm e gd ld ext B A S Li E0 E1 E2 E3 E4 EO) as (L & L1 & L2 & L3).
    exists L. split; [exact L1|]. split; [exact L2|]. split; [rewrite (eo_ld _ _ _ _ _ EO); apply norm_len|].
    intros j Hj. destruct (L3 j Hj) as (P & Q). split; [|split; [exact P|exact Q]].
    rewrite (eo_ld _ _ _ _ _ EO). apply norm_idx, Hj.
Qed.

(** Processors. *)
Lemma sub_procs u lens m dm sm : built u -> no_cyclic u -> apply_map u lens = Some m -> sub_of lens dm ->
  subset_map m (u_pvec u) dm = Some sm -> NoDup (u_pvec u) -> NoDup (map se_proc sm).
Proof.
  intros B N A S Es ND. destruct (subset_map_shape u lens m dm B N A S) as (sm' & Es' & I1 & I2 & _).
  assert (sm' = sm) by congruence. subst sm'. clear Es Es'.
  induction sm as [|e sm IH]; cbn [map]; constructor.
  - intros H. apply in_map_iff in H as (e' & E & He').
    apply StronglySorted_inv in I1 as [_ F]. rewrite Forall_forall in F. specialize (F e' He').
    destruct (I2 e (or_introl eq_refl)) as (_ & _ & _ & _ & _ & _ & _ & X & _).
    destruct (I2 e' (or_intror He')) as (_ & _ & _ & _ & _ & _ & _ & Y & _).
    rewrite E, <- X in Y. rewrite NoDup_nth_error in ND. assert (se_parent e' = se_parent e); [|lia].
    apply ND; [apply nth_error_Some; congruence|congruence].
  - apply StronglySorted_inv in I1 as [I1 _]. apply IH; [|exact I1]. intros x Hx. apply I2. right. exact Hx.
Qed.

Lemma sub_owner_lemma u lens m dm sm : built u -> no_cyclic u -> apply_map u lens = Some m -> sub_of lens dm ->
  subset_map m (u_pvec u) dm = Some sm -> NoDup (u_pvec u) ->
  (forall pr i, sub_subblock sm pr = Some i <-> exists e, nth_error sm i = Some e /\ se_proc e = pr) /\
  (forall i e, nth_error sm i = Some e ->
     subset_local_domain m sm dm (se_proc e) = local_from_global_domain m (se_parent e) dm) /\
  (forall pr, (forall e, In e sm -> se_proc e <> pr) ->
     subset_local_domain m sm dm pr = Some (map (fun _ => mkdom 0 1 0) dm)).
Proof.
  intros B N A S Es ND. pose proof (sub_procs u lens m dm sm B N A S Es ND) as NP.
  assert (R : forall pr i, rank_from_proc (map se_proc sm) pr = Some i <-> exists e, nth_error sm i = Some e /\ se_proc e = pr).
  { intros pr i. rewrite rank_spec by exact NP. rewrite nth_error_map. destruct (nth_error sm i) as [e|]; cbn.
    - split; [intros [= <-]; eauto|intros (e' & [= <-] & <-); reflexivity].
    - split; [discriminate|intros (e & X & _); discriminate]. }
  split; [|split].
  - intros pr i. unfold sub_subblock. split.
    + intros H. apply R. destruct (rank_from_proc (map se_proc sm) pr) as [k|]; [|discriminate].
      destruct (k <? length sm); [|discriminate]. exact H.
    + intros H. pose proof H as (e & He & _). apply R in H. rewrite H.
      assert (i <? length sm = true) as -> by (apply Nat.ltb_lt, nth_error_Some; congruence). reflexivity.
  - intros i e He. unfold subset_local_domain. assert (X : rank_from_proc (map se_proc sm) (se_proc e) = Some i) by (apply R; eauto).
    rewrite X, He. reflexivity.
  - intros pr H. unfold subset_local_domain. assert (rank_from_proc (map se_proc sm) pr = None) as ->; [|reflexivity].
    apply rank_none. intros X. apply in_map_iff in X as (e & E & He). exact (H e He E).
Qed.

(** A sub-view of a sub-view. *)
Lemma sub_sub_lemma u lens m dm dm2 sm : built u -> no_cyclic u -> apply_map u lens = Some m -> sub_of lens dm ->
  sub_of (map Z.to_nat (map dlen dm)) dm2 ->
  subset_map m (u_pvec u) dm = Some sm ->
  exists sm2, subset_map2 sm dm2 = Some sm2 /\
   (forall k, posD dm2 k -> exists i e, nth_error sm2 i = Some e /\ indomD (se_gd e) k /\
      (forall i' e', nth_error sm2 i' = Some e' -> indomD (se_gd e') k -> i' = i) /\
      exists g l, map Z.of_nat g = idxD dm (idxD dm2 k) /\ placed u lens g (se_proc e) l) /\
   (forall i e k, nth_error sm2 i = Some e -> indomD (se_gd e) k -> posD dm2 k).
Proof.
  intros B N A S S2 Es. destruct (subset_map_shape u lens m dm B N A S) as (sm' & Es' & I1 & I2 & I3).
  assert (sm' = sm) by congruence. subst sm'. clear Es'.
  destruct (subview_lemma u lens m dm B N A S) as (sm' & Es' & V1 & V2).
  assert (sm' = sm) by congruence. subst sm'. clear Es'.
  assert (P2 : forall k, posD dm2 k -> posD dm (idxD dm2 k)).
  { clear - S2. revert dm2 S2. induction dm as [|d dm IH]; intros dm2 S2 k Hk; inversion S2; subst.
    - inversion Hk. constructor.
    - apply posD_cons in Hk as (a & b & -> & K1 & K2). rewrite idxD_cons. apply posD_cons. eexists _, _. split; [reflexivity|].
      destruct H1 as (Q1 & Q2 & Q3 & Q4 & Q5). split; [|eapply IH; eassumption].
      assert (X : indom y (idx y a)) by (exists a; auto). apply Q5 in X.
      assert (Y : (0 <= idx y a)%Z) by (unfold idx; destruct Q2 as (? & ? & ? & ?); nia). lia. }
  unfold subset_map2. destruct (sub_entries_ok dm2 (map sub_sbinfo sm) 0) as (sm2 & E2 & J1 & J2 & J3).
  { apply Forall_forall. intros x Hx. apply in_map_iff in Hx as (e & <- & He). exists (se_gd e), (se_ld e). split; [reflexivity|].
    destruct (I2 e He) as (_ & gd & ld & ext & _ & G1 & _ & _ & _ & EO). rewrite (eo_ld _ _ _ _ _ EO).
    assert (Len : length (se_gd e) = length dm2).
    { destruct (eo_pld _ _ _ _ _ EO) as (intr & pld & A1 & _).
      assert (Lgd : length (se_gd e) = length dm).
      {
        destruct (In_nth_error _ _ He) as (i & Hi). destruct (V2 i e Hi) as (L & _ & LL & _ & W).
        assert (PE : posD (se_gd e) (map (fun _ => 0%Z) (se_gd e))).
        { pose proof (eo_gd _ _ _ _ _ EO) as F. clear - F. induction F as [|g gs (_ & _ & F1) _ IH]; cbn; constructor; [lia|exact IH]. }
        destruct (W _ PE) as (_ & Pd & _). apply F2_len in Pd. unfold idxD in Pd. rewrite map_length, combine_length, map_length, Nat.min_id in Pd. congruence. }
      rewrite Lgd. apply F2_len in S2. rewrite !map_length in S2. exact S2. }
    pose proof (eo_gd _ _ _ _ _ EO) as F. clear - F S2 Len.
    assert (Q : Forall dgood dm2).
    { clear - S2. revert S2. generalize (map Z.to_nat (map dlen dm)). intros ls S2.
      induction S2 as [|n d ls ds (X1 & X2 & X3 & X4 & X5) _ IH]; [constructor|].
      constructor; [split; [exact X2|]; split; assumption|exact IH]. }
    clear S2. revert dm2 Len Q. induction F as [|g gs (F1 & F2 & F3) _ IH]; intros [|d dm2] Len Q; cbn in *; try discriminate; [constructor|].
    inversion Q; subst. constructor; auto; unfold pgood, normalize, dom_ok, idx in *; cbn [dfirst dstride dlen]; try tauto; try lia. }
  exists sm2. split; [exact E2|]. split.
  - intros k Hk. destruct (V1 (idxD dm2 k) (P2 k Hk)) as (i & e & Hi & Gi & U).
    destruct (J3 i (sub_sbinfo e) (se_gd e) (se_ld e) k) as (e2 & He2 & Pe2); auto.
    { rewrite nth_error_map, Hi. reflexivity. }
    destruct (In_nth_error _ _ He2) as (i2 & Hi2). exists i2, e2. split; [exact Hi2|].
    destruct (J1 e2 He2) as (_ & x & pg & pl & X1 & X2 & X3). rewrite Nat.sub_0_r, Pe2 in X1. cbn [Nat.add] in X1.
    rewrite nth_error_map, Hi in X1. cbn in X1. injection X1 as <-. cbn in X2. injection X2 as <- <-.
    split; [apply (eo_mem _ _ _ _ _ X3); auto|]. split.
    + intros i' e' Hi' Ge'. pose proof (nth_error_In _ _ Hi') as Hin'. destruct (J1 e' Hin') as (_ & x' & pg' & pl' & Y1 & Y2 & Y3).
      rewrite Nat.sub_0_r in Y1. rewrite nth_error_map in Y1. destruct (nth_error sm (se_parent e')) as [e0|] eqn:Q; [|discriminate].
      cbn in Y1. injection Y1 as <-. cbn in Y2. injection Y2 as <- <-. apply (eo_mem _ _ _ _ _ Y3) in Ge' as [_ Ge'].
      apply (sorted_unique se_parent sm2 J2 i' i2 e' e2 Hi' Hi2). rewrite Pe2. cbn [Nat.add]. exact (U _ _ Q Ge').
    + destruct (V2 i e Hi) as (L & _ & _ & _ & W).
      assert (Y : exists j, posD (se_gd e) j /\ idxD (se_gd e) j = idxD dm2 k).
      { clear - Gi. revert Gi. generalize (idxD dm2 k). induction (se_gd e) as [|d ds IH]; intros x H.
        - inversion H. exists []. repeat split. constructor.
        - apply indomD_cons in H as (a & b & -> & (j & Hj & ->) & H2). destruct (IH b H2) as (js & J1 & J2).
          exists (j :: js). rewrite posD_cons, idxD_cons, J2. split; [eauto|reflexivity]. }
      destruct Y as (j & Yj & Ej). destruct (W j Yj) as (_ & _ & g & l & G1 & G2 & G3).
      exists g, l. rewrite <- Ej. split; [exact G1|]. pose proof (eo_proc _ _ _ _ _ X3) as Pp. cbn in Pp. rewrite Pp. exact G3.
  - intros i e k Hi Gk. apply nth_error_In in Hi. destruct (J1 e Hi) as (_ & x & pg & pl & X1 & X2 & X3).
    apply (eo_mem _ _ _ _ _ X3) in Gk. tauto.
Qed.
