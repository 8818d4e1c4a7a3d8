From Coq Require Import ZArith List Lia Bool.
From Coq Require FinFun.
From Verif Require Import Base Domain.
Import ListNotations.
Open Scope Z_scope.

Lemma W64_H64 : W64 = 2 * H64. Proof. reflexivity. Qed.
Lemma H64_pos : 0 < H64. Proof. reflexivity. Qed.
Global Opaque W64 H64.

Lemma u64_small z : 0 <= z < W64 -> u64 z = z.
Proof. apply Z.mod_small. Qed.
Lemma u64_range z : 0 <= u64 z < W64.
Proof. unfold u64. apply Z.mod_pos_bound. pose proof W64_H64; pose proof H64_pos; lia. Qed.
Lemma u64_eq z k : u64 (z + k * W64) = u64 z.
Proof. unfold u64. apply Z.mod_add. pose proof W64_H64; pose proof H64_pos; lia. Qed.
Lemma u64_neg z : - W64 <= z < 0 -> u64 z = z + W64.
Proof. intros H. rewrite <- (u64_eq z 1). apply u64_small. lia. Qed.
Lemma u64_add_l a b : u64 (u64 a + b) = u64 (a + b).
Proof. unfold u64. apply Zplus_mod_idemp_l. Qed.
Lemma u64_add_r a b : u64 (a + u64 b) = u64 (a + b).
Proof. unfold u64. apply Zplus_mod_idemp_r. Qed.
Lemma u64_mul_l a b : u64 (u64 a * b) = u64 (a * b).
Proof. unfold u64. apply Zmult_mod_idemp_l. Qed.
Lemma u64_mul_r a b : u64 (a * u64 b) = u64 (a * b).
Proof. unfold u64. apply Zmult_mod_idemp_r. Qed.
Lemma s64_small z : - H64 <= z < H64 -> s64 z = z.
Proof.
  intros H. unfold s64. pose proof W64_H64; pose proof H64_pos.
  destruct (Z_lt_dec z 0).
  - fold (u64 z). rewrite u64_neg by lia. destruct (Z.ltb_spec (z + W64) H64); lia.
  - fold (u64 z). rewrite u64_small by lia. destruct (Z.ltb_spec z H64); lia.
Qed.
Lemma s64_u64 z : s64 (u64 z) = s64 z.
Proof. unfold s64, u64. rewrite Zmod_mod. reflexivity. Qed.
Lemma u64_s64 z : u64 (s64 z) = u64 z.
Proof.
  unfold s64. fold (u64 z). pose proof (u64_range z). pose proof W64_H64. pose proof H64_pos.
  destruct (Z.ltb_spec (u64 z) H64).
  - rewrite u64_small; lia.
  - rewrite u64_neg by lia. lia.
Qed.

Ltac words := let a := fresh "Hw" in let b := fresh "Hw" in pose proof W64_H64 as a; pose proof H64_pos as b.

Lemma idx_between d i :
  dom_ok d -> 0 <= i < dlen d -> 0 <= idx d i < H64.
Proof.
  intros (Hf & Hs & Hn & Hl) Hi. unfold idx in *. specialize (Hl ltac:(lia)).
  destruct (Z_le_dec 0 (dstride d)); split; nia.
Qed.

Lemma nth_idx d i : dom_ok d -> 0 <= i < dlen d -> impl_nth d i = idx d i.
Proof.
  intros H Hi. pose proof (idx_between d i H Hi) as Hb. destruct H as (Hf & Hs & Hn & Hl).
  unfold impl_nth. words. rewrite s64_small by lia. fold (idx d i). apply u64_small. lia.
Qed.

Lemma last_idx d : dom_ok d -> 0 < dlen d -> impl_last d = idx d (dlen d - 1).
Proof.
  intros H Hn. unfold impl_last. words.
  rewrite u64_small by (destruct H as (?&?&?&?); lia).
  apply nth_idx; [exact H|lia].
Qed.

Lemma ok_valid d : dom_ok d -> impl_is_valid d = true.
Proof.
  intros H. unfold impl_is_valid.
  destruct (Z.eqb_spec (dlen d) 0) as [E|E]; [reflexivity|simpl].
  assert (0 < dlen d) by (destruct H as (?&?&?&?); lia).
  rewrite last_idx by assumption. words.
  pose proof (idx_between d (dlen d - 1) H ltac:(lia)).
  rewrite s64_small by lia. lia.
Qed.

Lemma make_ok i s n : dom_ok (mkdom i s n) -> make i s n = Some (mkdom i s n).
Proof. intros H. unfold make. rewrite ok_valid by exact H. reflexivity. Qed.

(** ** Equality *)

Lemma equals_iff a b : dom_ok a -> dom_ok b ->
  impl_equals a b = true <->
  dlen a = dlen b /\
  ((dstride a = dstride b /\ dfirst a = dfirst b) \/
   (dstride a = - dstride b /\
    (dlen b = 0 /\ dfirst a = u64 (dfirst b - dstride b) \/
     0 < dlen b /\ dfirst a = idx b (dlen b - 1)))).
Proof.
  intros Ha Hb. unfold impl_equals. rewrite andb_true_iff, orb_true_iff, !andb_true_iff, !Z.eqb_eq.
  words.
  assert (E : u64 (dfirst b + u64 (u64 (dlen b - 1) * u64 (dstride b)))
              = u64 (dfirst b + (dlen b - 1) * dstride b)).
  { rewrite u64_add_r. rewrite <- u64_add_r. rewrite u64_mul_l, u64_mul_r. rewrite u64_add_r. reflexivity. }
  rewrite E.
  destruct Hb as (H1 & H2 & H3 & H4).
  destruct (Z.eq_dec (dlen b) 0) as [Z0|Z0].
  - rewrite Z0. replace (dfirst b + (0 - 1) * dstride b) with (dfirst b - dstride b) by ring.
    split; intros [L D]; (split; [exact L|]); destruct D as [D|D]; auto; right; intuition lia.
  - specialize (H4 ltac:(lia)). unfold idx in *.
    replace (dfirst b + (dlen b - 1) * dstride b) with (dfirst b + dstride b * (dlen b - 1)) by ring.
    rewrite u64_small by lia.
    split; intros [L D]; (split; [exact L|]); destruct D as [D|D]; auto; right; intuition lia.
Qed.

Lemma equals_sound a b : dom_ok a -> dom_ok b -> impl_equals a b = true -> same_set a b.
Proof.
  intros Ha Hb H. apply equals_iff in H; [|assumption..].
  destruct H as (L & [[S F]|(S & [[Z0 F]|[P F]])]).
  - intros x. unfold indom, idx. rewrite L, S, F. tauto.
  - intros x. unfold indom. rewrite L, Z0. split; intros (i & Hi & _); lia.
  - intros x. unfold indom, idx in *. rewrite L, S, F. split; intros (i & Hi & ->);
    exists (dlen b - 1 - i); split; try lia; ring.
Qed.

Lemma indom_first d : 0 < dlen d -> indom d (dfirst d).
Proof. intros H. exists 0. unfold idx. split; [lia|ring]. Qed.
Lemma indom_last d : 0 < dlen d -> indom d (idx d (dlen d - 1)).
Proof. intros H. exists (dlen d - 1). split; [lia|reflexivity]. Qed.

Lemma indom_second d : 1 < dlen d -> indom d (idx d 1).
Proof. intros H. exists 1. split; [lia|reflexivity]. Qed.
Lemma indom_penult d : 1 < dlen d -> indom d (idx d (dlen d - 2)).
Proof. intros H. exists (dlen d - 2). split; [lia|reflexivity]. Qed.

(** Normal form with positive stride: same first/stride/len implies... *)
Definition norm (d : dom) : dom :=
  if dstride d <? 0 then mkdom (idx d (dlen d - 1)) (- dstride d) (dlen d) else d.

Lemma norm_set d : same_set d (norm d).
Proof.
  unfold norm. destruct (Z.ltb_spec (dstride d) 0); [|intros x; tauto].
  intros x. unfold indom, idx; cbn [dfirst dstride dlen].
  split; intros (i & Hi & ->); exists (dlen d - 1 - i); split; try lia; ring.
Qed.

Lemma pos_set_eq a b :
  0 < dstride a -> 0 < dstride b -> 1 < dlen a -> 0 < dlen b ->
  same_set a b -> dfirst a = dfirst b /\ dstride a = dstride b /\ dlen a = dlen b.
Proof.
  intros Sa Sb La Lb H.
  assert (F : dfirst a = dfirst b).
  { destruct (proj1 (H _) (indom_first a ltac:(lia))) as (i & Hi & Ei).
    destruct (proj2 (H _) (indom_first b ltac:(lia))) as (j & Hj & Ej).
    unfold idx in *. nia. }
  assert (Lst : idx a (dlen a - 1) = idx b (dlen b - 1)).
  { destruct (proj1 (H _) (indom_last a ltac:(lia))) as (i & Hi & Ei).
    destruct (proj2 (H _) (indom_last b ltac:(lia))) as (j & Hj & Ej).
    unfold idx in *. nia. }
  assert (Lb2 : 1 < dlen b).
  { unfold idx in Lst. nia. }
  assert (S : dstride a = dstride b).
  { destruct (proj1 (H _) (indom_second a ltac:(lia))) as (i & Hi & Ei).
    destruct (proj2 (H _) (indom_second b ltac:(lia))) as (j & Hj & Ej).
    unfold idx in *.
    assert (dstride a = dstride b * i) by nia.
    assert (dstride b = dstride a * j) by nia.
    assert (0 < i) by nia. assert (0 < j) by nia.
    assert (dstride b = dstride b * (i * j)) by nia.
    assert (IJ : i * j = 1).
    { apply (Z.mul_reg_l _ _ (dstride b)); lia. }
    assert (i = 1) by (apply (Z.eq_mul_1_nonneg i j); lia). subst i. lia. }
  repeat split; auto. unfold idx in Lst. nia.
Qed.

Lemma equals_complete a b :
  dom_ok a -> dom_ok b -> 1 < dlen a -> dstride a <> 0 -> dstride b <> 0 ->
  same_set a b -> impl_equals a b = true.
Proof.
  intros Ha Hb La Sa Sb H.
  apply equals_iff; [assumption..|].
  assert (Lb : 0 < dlen b).
  { destruct (proj1 (H _) (indom_first a ltac:(lia))) as (i & Hi & _). lia. }
  assert (N : same_set (norm a) (norm b)).
  { intros x. rewrite <- (norm_set a x), <- (norm_set b x). apply H. }
  assert (D : dfirst (norm a) = dfirst (norm b) /\ dstride (norm a) = dstride (norm b) /\ dlen (norm a) = dlen (norm b)).
  { apply pos_set_eq; auto; unfold norm;
    destruct (Z.ltb_spec (dstride a) 0), (Z.ltb_spec (dstride b) 0); cbn [dfirst dstride dlen]; lia. }
  revert D. unfold norm.
  destruct (Z.ltb_spec (dstride a) 0), (Z.ltb_spec (dstride b) 0);
    cbn [dfirst dstride dlen]; intros (F & S & L).
  - split; [lia|]. left. split; [lia|]. unfold idx in F. rewrite L in F.
    assert (dstride a = dstride b) by lia. rewrite H2 in F. lia.
  - split; [lia|]. right. split; [lia|]. right. split; [lia|].
    unfold idx in *. rewrite <- F, <- S, L. ring.
  - split; [lia|]. right. split; [lia|]. right. split; [lia|]. lia.
  - split; [lia|]. left. split; lia.
Qed.

(** ** Arithmetic *)

Lemma add_in_ok d k : dom_ok d -> dom_ok (mkdom (dfirst d + k) (dstride d) (dlen d)) ->
  impl_add_in d k = Some (mkdom (dfirst d + k) (dstride d) (dlen d)).
Proof.
  intros H K. unfold impl_add_in. words. destruct K as (K1 & K2) eqn:E. cbn [dfirst] in K1.
  rewrite u64_small by lia. apply make_ok. exact K.
Qed.
Lemma sub_out_ok d k : dom_ok d -> dom_ok (mkdom (dfirst d - k) (dstride d) (dlen d)) ->
  impl_sub_out d k = Some (mkdom (dfirst d - k) (dstride d) (dlen d)).
Proof.
  intros H K. unfold impl_sub_out. words. destruct K as (K1 & K2) eqn:E. cbn [dfirst] in K1.
  rewrite u64_small by lia. apply make_ok. exact K.
Qed.
Lemma s64_congr a b : u64 a = u64 b -> s64 a = s64 b.
Proof. unfold s64, u64. intros ->. reflexivity. Qed.
Lemma mul_by_ok d k : dom_ok d -> 0 <= k < W64 ->
  dom_ok (mkdom (dfirst d) (dstride d * k) (dlen d)) ->
  impl_mul_by d k = Some (mkdom (dfirst d) (dstride d * k) (dlen d)).
Proof.
  intros H Hk K. unfold impl_mul_by.
  assert (E : s64 (u64 (dstride d) * k) = dstride d * k).
  { rewrite (s64_congr _ (dstride d * k)) by apply u64_mul_l.
    apply s64_small. destruct K as (_ & K2 & _). cbn [dstride] in K2. lia. }
  rewrite E. apply make_ok. exact K.
Qed.
Lemma div_by_ok d k : dom_ok d -> 0 < k < W64 -> 0 <= dstride d ->
  dom_ok (mkdom (dfirst d) (dstride d / k) (dlen d)) ->
  impl_div_by d k = Some (mkdom (dfirst d) (dstride d / k) (dlen d)).
Proof.
  intros H Hk S K. unfold impl_div_by. words.
  destruct (Z.eqb_spec k 0); [lia|cbn [negb]].
  destruct H as (H1 & H2 & H3 & H4).
  rewrite u64_small by lia. rewrite s64_small.
  2:{ pose proof (Z.div_le_upper_bound (dstride d) k (dstride d) ltac:(lia) ltac:(nia)).
      pose proof (Z.div_pos (dstride d) k ltac:(lia) ltac:(lia)). lia. }
  apply make_ok. exact K.
Qed.

(** ** Intersection *)

Lemma intersect_unit a b :
  dom_ok a -> dom_ok b -> dstride a = 1 -> dstride b = 1 -> 0 < dlen a -> 0 < dlen b ->
  exists r, intersect a b = Some r /\
  match r with
  | None => forall x, ~ (indom a x /\ indom b x)
  | Some c => dom_ok c /\ 0 < dlen c /\ dstride c = dstride b /\
              (forall x, indom c x <-> indom a x /\ indom b x)
  end.
Proof.
  intros Ha Hb Sa Sb La Lb. unfold intersect. rewrite Sa, Sb. cbn [Z.eqb Pos.eqb].
  rewrite !last_idx by assumption. unfold idx. rewrite Sa, Sb.
  assert (Ma : forall x, indom a x <-> dfirst a <= x <= dfirst a + 1 * (dlen a - 1)).
  { intros x. unfold indom, idx. rewrite Sa. split; [intros (i&?&?); lia|].
    intros; exists (x - dfirst a); lia. }
  assert (Mb : forall x, indom b x <-> dfirst b <= x <= dfirst b + 1 * (dlen b - 1)).
  { intros x. unfold indom, idx. rewrite Sb. split; [intros (i&?&?); lia|].
    intros; exists (x - dfirst b); lia. }
  destruct Ha as (A1 & A2 & A3 & A4), Hb as (B1 & B2 & B3 & B4).
  specialize (A4 La); specialize (B4 Lb). unfold idx in *. rewrite Sa in *; rewrite Sb in *.
  set (f := Z.max (dfirst a) (dfirst b)).
  set (l := Z.min (dfirst a + 1 * (dlen a - 1)) (dfirst b + 1 * (dlen b - 1))).
  words.
  destruct (Z.leb_spec f l) as [Q|Q].
  - assert (K : dom_ok (mkdom f 1 (l - f + 1))).
    { unfold dom_ok, idx; cbn [dfirst dstride dlen]. lia. }
    rewrite (u64_small (l - f)) by lia.
    rewrite u64_small by lia. rewrite make_ok by exact K. cbn [bind].
    eexists; split; [reflexivity|]. split; [exact K|]. cbn [dlen dstride dfirst].
    split; [lia|]. split; [reflexivity|].
    intros x. rewrite Ma, Mb. unfold indom, idx; cbn [dlen dstride dfirst].
    split; [intros (i&?&?); lia|]. intros; exists (x - f); lia.
  - exists None. split; [reflexivity|]. intros x. rewrite Ma, Mb. lia.
Qed.

Lemma mul_lt_cancel s a b : 0 < s -> s * a < s * b -> a < b.
Proof. intros Hs H. apply (Z.mul_lt_mono_pos_l s); assumption. Qed.

Lemma mod_nz_shift m s : 0 < s -> m mod s <> 0 -> (m + (s - m mod s)) mod s = 0.
Proof.
  intros Hs Hm. replace (m + (s - m mod s)) with ((m / s + 1) * s).
  - apply Z.mod_mul. lia.
  - pose proof (Z.div_mod m s ltac:(lia)). lia.
Qed.

Lemma intersect_strided a b :
  dom_ok a -> dom_ok b -> dstride a = 1 -> 1 < dstride b -> 0 < dlen a -> 0 < dlen b ->
  exists r, intersect a b = Some r /\
  match r with
  | None => forall x, ~ (indom a x /\ indom b x)
  | Some c => dom_ok c /\ 0 < dlen c /\ dstride c = dstride b /\
              (forall x, indom c x <-> indom a x /\ indom b x)
  end.
Proof.
  intros Ha Hb Sa Sb La Lb. unfold intersect. rewrite Sa. cbn [Z.eqb Pos.eqb].
  destruct (Z.eqb_spec (dstride b) 1) as [?|_]; [lia|].
  rewrite !last_idx by assumption.
  assert (Ma : forall x, indom a x <-> dfirst a <= x <= idx a (dlen a - 1)).
  { intros x. unfold indom, idx. rewrite Sa. split; [intros (i&?&?); lia|].
    intros; exists (x - dfirst a); lia. }
  pose proof (idx_between b (dlen b - 1) Hb ltac:(lia)) as LB.
  pose proof (idx_between a (dlen a - 1) Ha ltac:(lia)) as LA.
  assert (FA : dfirst a <= idx a (dlen a - 1)) by (unfold idx; rewrite Sa; lia).
  assert (FB : dfirst b <= idx b (dlen b - 1)) by (unfold idx; nia).
  assert (GB : exists q, 0 <= q /\ idx b (dlen b - 1) = dfirst b + dstride b * q)
    by (exists (dlen b - 1); unfold idx; lia).
  assert (Mb : forall x, indom b x <-> dfirst b <= x <= idx b (dlen b - 1) /\ exists q, x = dfirst b + dstride b * q).
  { intros x. unfold indom, idx. split.
    - intros (i&?&->). split; [nia|]. exists i; reflexivity.
    - intros (R & q & ->). exists q. split; [nia|reflexivity]. }
  destruct Ha as (A1 & A2 & A3 & A4), Hb as (B1 & B2 & B3 & B4).
  set (s := dstride b) in *. set (f1 := dfirst a) in *. set (f2 := dfirst b) in *.
  set (l1 := idx a (dlen a - 1)) in *. set (l2 := idx b (dlen b - 1)) in *.
  clearbody s f1 f2 l1 l2. words.
  assert (Us : u64 s = s) by (apply u64_small; lia). rewrite Us.
  destruct (Z.eqb_spec s 0); [lia|]. cbn [negb].
  (* the adjusted first index: least grid point >= max f1 f2 *)
  set (F := if f2 <? f1 then _ else f2).
  assert (HF : exists q, 0 <= q /\ F = f2 + s * q /\ f1 <= F /\ (F - s < f1 \/ q = 0) /\ F < 2 * H64).
  { unfold F. destruct (Z.ltb_spec f2 f1) as [Q|Q].
    - rewrite (u64_small (f1 - f2)) by lia. rewrite (u64_small (f2 + (f1 - f2))) by lia.
      pose proof (Z.mod_pos_bound (f1 - f2) s ltac:(lia)) as MB.
      pose proof (Z.div_mod (f1 - f2) s ltac:(lia)) as DM.
      destruct (Z.eqb_spec ((f1 - f2) mod s) 0) as [M|M]; cbn [negb].
      + exists ((f1 - f2) / s). pose proof (Z.div_pos (f1 - f2) s). repeat split; try lia.
      + rewrite (u64_small (s - _)) by lia. rewrite u64_small by lia.
        exists ((f1 - f2) / s + 1). pose proof (Z.div_pos (f1 - f2) s). repeat split; try lia.
    - exists 0. repeat split; lia. }
  set (L := if l1 <? l2 then _ else l2).
  (* the adjusted last index: min l1 L lies in the last grid cell not beyond l1 and l2 *)
  assert (HL : exists q, Z.min l1 L < f2 + s * (q + 1) /\ f2 + s * q <= Z.min l1 L /\
                         f2 + s * q <= l1 /\ f2 + s * q <= l2 /\ (l1 < f2 + s * (q + 1) \/ l2 < f2 + s * (q + 1)) /\ Z.min l1 L < H64).
  { destruct GB as (p & Hp & Ep). unfold L. destruct (Z.ltb_spec l1 l2) as [Q|Q].
    - rewrite (u64_small (l2 - l1)) by lia.
      pose proof (Z.mod_pos_bound (l2 - l1) s ltac:(lia)) as MB.
      pose proof (Z.div_mod (l2 - l1) s ltac:(lia)) as DM.
      pose proof (Z.div_pos (l2 - l1) s ltac:(lia) ltac:(lia)) as DP.
      destruct (Z.eqb_spec ((l2 - l1) mod s) 0) as [M|M]; cbn [negb].
      + exists (p - (l2 - l1) / s). rewrite Z.min_l by lia. repeat split; nia.
      + rewrite (u64_small (s - _)) by lia.
        destruct (Z_lt_dec (l2 - (s - (l2 - l1) mod s)) 0).
        * rewrite u64_neg by lia. exists (p - (l2 - l1) / s - 1).
          assert (f2 + s * (p - (l2 - l1) / s - 1) = l1 - (s - (l2 - l1) mod s)) by nia.
          assert (f2 + s * (p - (l2 - l1) / s - 1 + 1) = l1 + (l2 - l1) mod s) by nia.
          rewrite Z.min_l by lia. repeat split; try lia.
        * rewrite u64_small by lia. exists (p - (l2 - l1) / s - 1).
          assert (f2 + s * (p - (l2 - l1) / s - 1) = l1 - (s - (l2 - l1) mod s)) by nia.
          assert (f2 + s * (p - (l2 - l1) / s - 1 + 1) = l1 + (l2 - l1) mod s) by nia.
          assert (0 <= s * ((l2 - l1) / s)) by nia.
          repeat split; try lia.
    - exists p. rewrite Z.min_r by lia. repeat split; nia. }
  clearbody F L.
  destruct HF as (p & Hp & EF & F1 & FM & FW), HL as (q & L1 & L2 & L3 & L4 & L5 & L6).
  rewrite (Z.max_r f1 F) by lia.
  destruct (Z.leb_spec F (Z.min l1 L)) as [Q|Q].
  - assert (PQ : p <= q) by nia.
    assert (E : (Z.min l1 L - F) / s = q - p).
    { symmetry. apply (Z.div_unique _ _ _ (Z.min l1 L - F - s * (q - p))); nia. }
    rewrite (u64_small (Z.min l1 L - F)) by lia. rewrite E. rewrite u64_small by nia.
    assert (K : dom_ok (mkdom F s (q - p + 1))).
    { unfold dom_ok, idx; cbn [dfirst dstride dlen]. repeat split; nia. }
    rewrite make_ok by exact K. cbn [bind]. eexists; split; [reflexivity|].
    split; [exact K|]. cbn [dfirst dstride dlen]. split; [lia|]. split; [reflexivity|].
    intros x. rewrite Ma, Mb. unfold indom, idx; cbn [dfirst dstride dlen]. split.
    + intros (i & Hi & ->). subst F.
      assert (0 <= s * i) by (apply Z.mul_nonneg_nonneg; lia).
      assert (0 <= s * p) by (apply Z.mul_nonneg_nonneg; lia).
      assert (s * (p + i) <= s * q) by (apply Z.mul_le_mono_nonneg_l; lia).
      split; [lia|]. split; [lia|]. exists (p + i). ring.
    + intros (R1 & R2 & k & ->). exists (k - p). subst F. split; [|ring].
      assert (k < q + 1) by (apply (mul_lt_cancel s); [lia|]; destruct L5; lia).
      assert (p - 1 < k).
      { destruct FM as [FM|FM].
        - apply (mul_lt_cancel s); lia.
        - subst p. assert (-1 < k); [|lia]. apply (mul_lt_cancel s); lia. }
      lia.
  - exists None. split; [reflexivity|]. intros x. rewrite Ma, Mb.
    intros (R1 & R2 & k & ->). subst F.
    assert (k < q + 1) by (apply (mul_lt_cancel s); [lia|]; destruct L5; lia).
    assert (p - 1 < k).
    { destruct FM as [FM|FM].
      - apply (mul_lt_cancel s); lia.
      - subst p. assert (-1 < k); [|lia]. apply (mul_lt_cancel s); lia. }
    assert (s * p <= s * k) by (apply Z.mul_le_mono_nonneg_l; lia).
    assert (s * k <= s * q) by (apply Z.mul_le_mono_nonneg_l; lia). lia.
Qed.

Lemma intersect_exact_lemma a b :
  dom_ok a -> dom_ok b -> dstride a = 1 -> 0 < dstride b -> 0 < dlen a -> 0 < dlen b ->
  exists r, intersect a b = Some r /\
  match r with
  | None => forall x, ~ (indom a x /\ indom b x)
  | Some c => dom_ok c /\ 0 < dlen c /\ dstride c = dstride b /\
              (forall x, indom c x <-> indom a x /\ indom b x)
  end.
Proof.
  intros. destruct (Z.eq_dec (dstride b) 1).
  - apply intersect_unit; assumption.
  - apply intersect_strided; try assumption; lia.
Qed.

Definition good_pair (a b : dom) : Prop :=
  dom_ok a /\ dom_ok b /\ dstride a = 1 /\ 0 < dstride b /\ 0 < dlen a /\ 0 < dlen b.

Lemma intersectD_exact_lemma a b :
  Forall2 good_pair a b ->
  exists r, intersectD a b = Some r /\
  match r with
  | None => forall x, ~ (indomD a x /\ indomD b x)
  | Some c => Forall2 (fun c d => dom_ok c /\ 0 < dlen c /\ dstride c = dstride d) c b /\
              (forall x, indomD c x <-> indomD a x /\ indomD b x)
  end.
Proof.
  induction 1 as [|d1 d2 a b G _ IH].
  - exists (Some []). split; [reflexivity|]. split; [constructor|].
    intros x. unfold indomD. split; [intros H; inversion H; subst; split; constructor|].
    intros [H _]. inversion H; subst; constructor.
  - destruct G as (G1 & G2 & G3 & G4 & G5 & G6).
    destruct (intersect_exact_lemma d1 d2 G1 G2 G3 G4 G5 G6) as (r & E & R).
    cbn [intersectD]. rewrite E. cbn [bind]. destruct r as [c|].
    2:{ exists None. split; [reflexivity|]. intros x [H1 H2].
        inversion H1; subst. inversion H2; subst. apply (R y). tauto. }
    destruct IH as (rs & Es & Rs). rewrite Es. cbn [bind]. destruct rs as [cs|].
    2:{ exists None. split; [reflexivity|]. intros x [H1 H2].
        inversion H1; subst. inversion H2; subst. apply (Rs l'). split; assumption. }
    exists (Some (c :: cs)). split; [reflexivity|].
    destruct R as (R1 & R2 & R3 & R4), Rs as (S1 & S2).
    split; [constructor; [tauto|exact S1]|].
    intros x. unfold indomD in *. split.
    + intros H. inversion H; subst. apply R4 in H2. destruct H2.
      apply S2 in H4. destruct H4. split; constructor; assumption.
    + intros [H1 H2]. inversion H1; subst. inversion H2; subst. constructor.
      * apply R4; tauto.
      * apply S2; tauto.
Qed.

(** ** apply_intr / subset_from_intr *)

Lemma apply_intr_lemma x y i :
  dom_ok x -> dom_ok y -> dom_ok i -> dstride y = 1 -> dlen x = dlen y -> 0 < dlen i ->
  - H64 < dstride x * dstride i < H64 ->
  (forall z, indom i z -> indom y z) ->
  exists r, apply_intr x y i = Some r /\ dlen r = dlen i /\ dom_ok r /\
  forall k, 0 <= k < dlen i ->
    exists p, 0 <= p < dlen y /\ idx y p = idx i k /\ idx r k = idx x p.
Proof.
  intros Hx Hy Hi Sy L Li SB Sub.
  assert (P : forall k, 0 <= k < dlen i -> 0 <= idx i k - dfirst y < dlen y).
  { intros k Hk. destruct (Sub (idx i k)) as (p & Hp & E).
    { exists k; auto. } unfold idx in *. rewrite Sy in E. lia. }
  pose proof (P 0 ltac:(lia)) as P0. unfold idx in P0; rewrite Z.mul_0_r, Z.add_0_r in P0.
  pose proof (P (dlen i - 1) ltac:(lia)) as PL.
  unfold apply_intr. words.
  assert (E1 : u64 (dfirst x + u64 (u64 (dfirst i - dfirst y) * u64 (dstride x)))
             = idx x (dfirst i - dfirst y)).
  { rewrite u64_add_r. rewrite <- u64_add_r, u64_mul_l, u64_mul_r, u64_add_r.
    unfold idx. rewrite (Z.mul_comm (dfirst i - dfirst y)). apply u64_small.
    pose proof (idx_between x (dfirst i - dfirst y) Hx ltac:(lia)). unfold idx in *. lia. }
  assert (E2 : forall k, 
     idx x (dfirst i - dfirst y) + dstride x * dstride i * k = idx x (idx i k - dfirst y)).
  { intros k. unfold idx. ring. }
  pose proof (idx_between x (dfirst i - dfirst y) Hx ltac:(lia)) as B0.
  pose proof (idx_between x (idx i (dlen i - 1) - dfirst y) Hx ltac:(lia)) as BL.
  rewrite E1. rewrite s64_small by lia.
  assert (K : dom_ok (mkdom (idx x (dfirst i - dfirst y)) (dstride x * dstride i) (dlen i))).
  { unfold dom_ok. cbn [dfirst dstride dlen]. destruct Hi as (I1 & I2 & I3 & I4).
    repeat split; try lia; unfold idx at 1; cbn [dfirst dstride dlen]; rewrite E2; lia. }
  rewrite make_ok by exact K. eexists; split; [reflexivity|]. split; [reflexivity|].
  split; [exact K|]. intros k Hk. exists (idx i k - dfirst y). split; [apply P; exact Hk|].
  split; [unfold idx at 1; rewrite Sy; ring|].
  unfold idx at 1; cbn [dfirst dstride]. apply E2.
Qed.

Lemma subset_from_intr_lemma d i :
  dom_ok d -> dom_ok i -> 0 < dstride d -> dstride i = dstride d -> 0 < dlen i ->
  (forall z, indom i z -> indom d z) ->
  exists r, subset_from_intr d i = Some r /\ dlen r = dlen i /\ dom_ok r /\
  forall k, 0 <= k < dlen i -> 0 <= idx r k < dlen d /\ idx d (idx r k) = idx i k.
Proof.
  intros Hd Hi Sd Si Li Sub.
  destruct (Sub (dfirst i) (indom_first i Li)) as (p & Hp & Ep).
  destruct (Sub _ (indom_last i Li)) as (q & Hq & Eq). unfold idx in Ep, Eq. rewrite Si in Eq.
  assert (Q : q = p + (dlen i - 1)) by nia.
  unfold subset_from_intr. words.
  destruct Hd as (D1 & D2 & D3 & D4). rewrite (u64_small (dstride d)) by lia.
  destruct (Z.eqb_spec (dstride d) 0); [lia|]. cbn [negb].
  assert (E : dfirst i - dfirst d = dstride d * p) by lia.
  rewrite E. destruct Hi as (I1 & I2 & I3 & I4).
  rewrite (u64_small (dstride d * p)) by nia.
  rewrite Z.mul_comm, Z.div_mul by lia.
  assert (K : dom_ok (mkdom p 1 (dlen i))).
  { unfold dom_ok, idx; cbn [dfirst dstride dlen]. lia. }
  rewrite make_ok by exact K. eexists; split; [reflexivity|]. split; [reflexivity|].
  split; [exact K|]. intros k Hk. unfold idx; cbn [dfirst dstride dlen].
  split; [lia|]. rewrite Si, Ep. ring.
Qed.

(** ** Several dimensions *)
Definition hypA (x y i : dom) : Prop := dom_ok x /\ dom_ok y /\ dom_ok i /\ dstride y = 1 /\ dlen x = dlen y /\ 0 < dlen i /\
  - H64 < dstride x * dstride i < H64 /\ (forall z, indom i z -> indom y z).
Lemma apply_intrD_lemma : forall x y i, length y = length x -> length i = length x ->
  (forall d a b c, nth_error x d = Some a -> nth_error y d = Some b -> nth_error i d = Some c -> hypA a b c) ->
  exists r, apply_intrD x y i = Some r /\ Forall2 (fun a b => dlen a = dlen b) r i /\ Forall dom_ok r /\
  forall k, posD i k -> exists p, posD y p /\ idxD y p = idxD i k /\ idxD r k = idxD x p.
Proof.
  induction x as [|a x IH]; intros [|b y] [|c i] L1 L2 H; try discriminate.
  - exists []. split; [reflexivity|]. split; [constructor|]. split; [constructor|]. intros k Hk. inversion Hk. exists []. repeat split. constructor.
  - destruct (H 0%nat a b c eq_refl eq_refl eq_refl) as (H1 & H2 & H3 & H4 & H5 & H6 & H7 & H8).
    destruct (apply_intr_lemma a b c H1 H2 H3 H4 H5 H6 H7 H8) as (r & E & Lr & Or & P).
    destruct (IH y i ltac:(cbn in *; lia) ltac:(cbn in *; lia) ltac:(intros d a' b' c' Ea Eb Ec; exact (H (S d) a' b' c' Ea Eb Ec))) as (rs & Es & Ls & Os & Ps).
    exists (r :: rs). cbn [apply_intrD]. rewrite E. cbn [bind]. rewrite Es. cbn [bind]. split; [reflexivity|]. split; [constructor; assumption|]. split; [constructor; assumption|].
    intros k Hk. inversion Hk as [|? k0 ? ks K0 Ks]. subst. destruct (P k0 K0) as (p & P1 & P2 & P3). destruct (Ps ks Ks) as (q & Q1 & Q2 & Q3).
    exists (p :: q). split; [constructor; assumption|]. unfold idxD in *. cbn. split; f_equal; assumption.
Qed.
Definition hypS (d i : dom) : Prop := dom_ok d /\ dom_ok i /\ 0 < dstride d /\ dstride i = dstride d /\ 0 < dlen i /\ (forall z, indom i z -> indom d z).
Lemma subset_from_intrD_lemma : forall d i, Forall2 hypS d i ->
  exists r, subset_from_intrD d i = Some r /\ Forall2 (fun a b => dlen a = dlen b) r i /\ Forall dom_ok r /\
  forall k, posD i k -> posD d (idxD r k) /\ idxD d (idxD r k) = idxD i k.
Proof.
  induction 1 as [|a c d i (H1 & H2 & H3 & H4 & H5 & H6) _ (rs & Es & Ls & Os & Ps)].
  - exists []. split; [reflexivity|]. split; [constructor|]. split; [constructor|]. intros k Hk. inversion Hk. repeat split. constructor.
  - destruct (subset_from_intr_lemma a c H1 H2 H3 H4 H5 H6) as (r & E & Lr & Or & P).
    exists (r :: rs). cbn [subset_from_intrD]. rewrite E. cbn [bind]. rewrite Es. cbn [bind]. split; [reflexivity|]. split; [constructor; assumption|]. split; [constructor; assumption|].
    intros k Hk. inversion Hk as [|? k0 ? ks K0 Ks]. subst. destruct (P k0 K0) as (P1 & P2). destruct (Ps ks Ks) as (Q1 & Q2).
    unfold posD, idxD in *. cbn. split; [constructor; assumption|]. f_equal; assumption.
Qed.
Definition indices (d : dom) : list Z := map (fun k => idx d (Z.of_nat k)) (seq 0 (Z.to_nat (dlen d))).
Lemma indices_in d x : In x (indices d) <-> indom d x.
Proof.
  unfold indices, indom. rewrite in_map_iff. split.
  - intros (k & <- & Hk). apply in_seq in Hk. exists (Z.of_nat k). split; [lia|reflexivity].
  - intros (i & Hi & ->). exists (Z.to_nat i). split; [f_equal; lia|]. apply in_seq. lia.
Qed.
Lemma indices_nodup d : dstride d <> 0 -> NoDup (indices d).
Proof.
  intros H. unfold indices. apply FinFun.Injective_map_NoDup; [|apply seq_NoDup]. intros a b E. unfold idx in E. nia.
Qed.
Fixpoint indicesD (d : list dom) : list (list Z) :=
  match d with [] => [[]] | a :: r => flat_map (fun x => map (cons x) (indicesD r)) (indices a) end.
Lemma indicesD_in d : forall x, In x (indicesD d) <-> indomD d x.
Proof.
  induction d as [|a d IH]; intros x; cbn [indicesD].
  - split; [intros [<-|[]]; constructor|]. intros H. inversion H. left. reflexivity.
  - rewrite in_flat_map. split.
    + intros (z & Hz & H). apply in_map_iff in H. destruct H as (r & <- & H). constructor; [apply indices_in; exact Hz|apply IH; exact H].
    + intros H. inversion H as [|? z ? r Hz Hr]. subst. exists z. split; [apply indices_in; exact Hz|]. apply in_map. apply IH. exact Hr.
Qed.
Lemma nodup_app {A} (l r : list A) : NoDup l -> NoDup r -> (forall x, In x l -> ~ In x r) -> NoDup (l ++ r).
Proof.
  intros Hl Hr D. induction Hl as [|x l Hx Hl IH]; cbn; [exact Hr|]. constructor.
  - rewrite in_app_iff. intros [H|H]; [contradiction|]. exact (D x (or_introl eq_refl) H).
  - apply IH. intros y Hy. apply D. right. exact Hy.
Qed.
Lemma flat_cons_nodup (l : list Z) (r : list (list Z)) : NoDup l -> NoDup r -> NoDup (flat_map (fun x => map (cons x) r) l).
Proof.
  intros Hl Hr. induction Hl as [|x l Hx Hl IH]; cbn; [constructor|]. apply nodup_app; [|exact IH|].
  - apply FinFun.Injective_map_NoDup; [|exact Hr]. intros a b E. congruence.
  - intros y Hy H. apply in_map_iff in Hy. destruct Hy as (z & <- & _). apply in_flat_map in H. destruct H as (x' & Hx' & H).
    apply in_map_iff in H. destruct H as (z' & E & _). injection E as E _. subst. contradiction.
Qed.
Definition prodlen (d : list dom) : Z := fold_right (fun x s => dlen x * s) 1 d.
Lemma prodlen_nonneg d : Forall dom_ok d -> 0 <= prodlen d.
Proof. induction 1 as [|a d (_ & _ & H & _) _ IH]; cbn; [lia|]. fold (prodlen d). apply Z.mul_nonneg_nonneg; [apply H|exact IH]. Qed.
Lemma dom_size_acc d : Forall dom_ok d -> forall s, 0 <= s < W64 -> s * prodlen d < W64 -> Forall (fun a => 0 < dlen a) d -> fold_left (fun s x => u64 (s * dlen x)) d s = s * prodlen d.
Proof.
  induction 1 as [|a d (_ & _ & Ha & _) Hd IH]; intros s Hs H P; cbn [fold_left prodlen fold_right] in *; [lia|]. inversion P as [|? ? P1 P2]. subst.
  pose proof (prodlen_nonneg d Hd) as Hp.
  assert (Q : 1 <= prodlen d).
  { clear - P2. induction P2 as [|b d Hb _ IH]; cbn; [lia|]. fold (prodlen d). nia. }
  fold (prodlen d) in H |- *. assert (X : 0 <= s * dlen a < W64).
  { split; [apply Z.mul_nonneg_nonneg; lia|]. apply Z.le_lt_trans with (s * (dlen a * prodlen d)); [|exact H]. apply Z.mul_le_mono_nonneg_l; [lia|]. rewrite <- (Z.mul_1_r (dlen a)) at 1. apply Z.mul_le_mono_nonneg_l; lia. } rewrite u64_small by exact X. rewrite IH; [ring|exact X|lia|exact P2].
Qed.
Lemma dom_size_zero d : forall s, (exists a, In a d /\ dlen a = 0) \/ s = 0 -> fold_left (fun s x => u64 (s * dlen x)) d s = 0.
Proof.
  induction d as [|a d IH]; intros s H; cbn [fold_left].
  - destruct H as [(a & [] & _)| ->]. reflexivity.
  - apply IH. destruct H as [(b & [->|Hb] & E)| ->].
    + right. rewrite E, Z.mul_0_r. reflexivity.
    + left. exists b. auto.
    + right. reflexivity.
Qed.
Lemma indicesD_length d : Forall dom_ok d -> Z.of_nat (length (indicesD d)) = prodlen d.
Proof.
  induction 1 as [|a d (_ & _ & Ha & _) Hd IH]; cbn [indicesD prodlen fold_right]; [reflexivity|]. fold (prodlen d). rewrite <- IH.
  replace (dlen a) with (Z.of_nat (length (indices a))) by (unfold indices; rewrite map_length, seq_length; lia).
  induction (indices a) as [|x l IHl]; cbn [flat_map length]; [lia|]. rewrite app_length, map_length. lia.
Qed.
Lemma dom_size_lemma d : Forall (fun a => dom_ok a /\ dstride a <> 0) d -> prodlen d < W64 ->
  exists l, NoDup l /\ (forall x, In x l <-> indomD d x) /\ dom_size d = Z.of_nat (length l).
Proof.
  intros H B. assert (O : Forall dom_ok d) by (eapply Forall_impl; [|exact H]; intros a [X _]; exact X).
  exists (indicesD d). split; [|split].
  - clear B O. induction H as [|a d [_ Ha] _ IH]; cbn [indicesD]; [constructor; [intros []|constructor]|]. apply flat_cons_nodup; [apply indices_nodup; exact Ha|exact IH].
  - apply indicesD_in.
  - rewrite indicesD_length by exact O. unfold dom_size. destruct (Forall_Exists_dec (fun a => 0 < dlen a) (fun a => Z_lt_dec 0 (dlen a)) d) as [P|P].
    + rewrite dom_size_acc; [ring|exact O|split; [lia|reflexivity]|lia|exact P].
    + apply Exists_exists in P. destruct P as (a & Ia & Na). rewrite Forall_forall in O. pose proof (O a Ia) as (_ & _ & La & _).
      assert (Za : dlen a = 0) by lia. rewrite dom_size_zero by (left; exists a; auto). symmetry. clear - Ia Za.
      induction d as [|b d IH]; [destruct Ia|]. cbn. fold (prodlen d). destruct Ia as [->|Ia]; [rewrite Za; ring|rewrite IH by exact Ia; ring].
Qed.
