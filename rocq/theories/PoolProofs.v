(** * Proofs about the pool allocator *)

From Coq Require Import ZArith List Bool Lia.
Require Import Verif.Base Verif.Pool.
Import ListNotations.
Local Open Scope Z_scope.

(** ** Sizes *)

Lemma units_pos n : 1 <= units n.
Proof. unfold units. lia. Qed.

Lemma round128_units n : 0 <= n <= W64 - 128 -> round128 n = 128 * units n.
Proof.
  intros H. unfold round128, units, u64, W64 in *.
  destruct (n <? 16) eqn:E.
  - apply Z.ltb_lt in E. change (16 mod 128 =? 0) with false. cbn iota.
    change ((16 + (128 - 16 mod 128)) mod 2 ^ 64) with 128. Z.to_euclidean_division_equations; lia.
  - apply Z.ltb_ge in E. destruct (n mod 128 =? 0) eqn:E2.
    + apply Z.eqb_eq in E2. Z.to_euclidean_division_equations; lia.
    + apply Z.eqb_neq in E2.
      rewrite Z.mod_small; Z.to_euclidean_division_equations; lia.
Qed.

(** ** The free list *)

Definition flist := list (Z * Z).

Fixpoint seg (m : words) (h : Z) (l : flist) (x : Z) : Prop :=
  match l with
  | [] => h = x
  | (a, k) :: t => h = a /\ a <> 0 /\ m (a + 8) = k /\ seg m (m a) t x
  end.

Fixpoint srt (lo hi : Z) (l : flist) : Prop :=
  match l with
  | [] => True
  | (a, k) :: t =>
    lo < a /\ a mod 128 = 0 /\ 0 < k /\ k mod 128 = 0 /\ a + k <= hi /\
    srt (a + k) hi t
  end.

Fixpoint endof (lo : Z) (l : flist) : Z :=
  match l with
  | [] => lo
  | (a, k) :: t => endof (a + k) t
  end.

Definition fbyte (l : flist) (x : Z) : Prop :=
  exists a k, In (a, k) l /\ a <= x < a + k.

Fixpoint fsum (l : flist) : Z :=
  match l with
  | [] => 0
  | (a, k) :: t => k + fsum t
  end.

Lemma fsum_app l1 l2 : fsum (l1 ++ l2) = fsum l1 + fsum l2.
Proof. induction l1 as [|[a k] t IH]; cbn [fsum app]; lia. Qed.

Lemma fsum_srt lo hi l : srt lo hi l -> 0 <= fsum l <= Z.max 0 (hi - lo).
Proof.
  assert (G : forall l lo, srt lo hi l -> 0 <= fsum l /\ (l <> [] -> fsum l <= hi - lo)).
  { clear. induction l as [|[a k] t IH]; intros lo H; cbn [srt fsum] in *; [split; [lia|contradiction]|].
    destruct H as (H1 & H2 & H3 & H4 & H5 & H6). destruct (IH _ H6) as [I1 I2].
    split; [lia|]. intros _. destruct t as [|c t']; [cbn [fsum]; lia|].
    assert (N : c :: t' <> []) by discriminate. specialize (I2 N). lia. }
  intros H. destruct (G _ _ H) as [G1 G2]. destruct l as [|c t]; [cbn [fsum]; lia|].
  assert (N : c :: t <> []) by discriminate. specialize (G2 N). lia.
Qed.

Lemma seg_app m h l1 l2 x :
  seg m h (l1 ++ l2) x <-> exists y, seg m h l1 y /\ seg m y l2 x.
Proof.
  revert h. induction l1 as [|[a k] t IH]; intros h; cbn [seg app].
  - split; [intros H; exists h; auto|intros (y & -> & H); exact H].
  - rewrite IH. split.
    + intros (H1 & H2 & H3 & y & H4 & H5). exists y. tauto.
    + intros (y & (H1 & H2 & H3 & H4) & H5). repeat split; auto. exists y; auto.
Qed.

Lemma seg_frame (m m' : words) h l x :
  (forall a k, In (a, k) l -> m' a = m a /\ m' (a + 8) = m (a + 8)) ->
  seg m h l x -> seg m' h l x.
Proof.
  revert h. induction l as [|[a k] t IH]; intros h F H; cbn [seg] in *; [exact H|].
  destruct H as (H1 & H2 & H3 & H4).
  destruct (F a k (or_introl eq_refl)) as [F1 F2].
  repeat split; auto; [congruence|].
  rewrite F1. apply IH; [|exact H4]. intros b j Hb. apply (F b j). right; exact Hb.
Qed.

Lemma srt_app lo hi l1 l2 :
  srt lo hi (l1 ++ l2) <-> srt lo hi l1 /\ srt (endof lo l1) hi l2.
Proof.
  revert lo. induction l1 as [|[a k] t IH]; intros lo; cbn [srt app endof]; [tauto|].
  rewrite IH. tauto.
Qed.

Lemma endof_app lo l1 l2 : endof lo (l1 ++ l2) = endof (endof lo l1) l2.
Proof. revert lo. induction l1 as [|[a k] t IH]; intros lo; cbn [endof app]; auto. Qed.

Lemma srt_in lo hi l a k :
  srt lo hi l -> In (a, k) l ->
  lo < a /\ a mod 128 = 0 /\ 0 < k /\ k mod 128 = 0 /\ a + k <= hi /\ a + k <= endof lo l.
Proof.
  assert (G : forall l lo, srt lo hi l -> lo <= endof lo l).
  { clear. induction l as [|[b j] t IH]; intros lo H; cbn [srt endof] in *; [lia|].
    destruct H as (H1 & H2 & H3 & H4 & H5 & H6). specialize (IH _ H6). lia. }
  revert lo. induction l as [|[b j] t IH]; intros lo H Hin; [destruct Hin|].
  cbn [srt endof] in *. destruct H as (H1 & H2 & H3 & H4 & H5 & H6).
  destruct Hin as [E|Hin].
  - injection E as -> ->. specialize (G _ _ H6). repeat split; auto.
  - destruct (IH _ H6 Hin) as (I1 & I2 & I3 & I4 & I5 & I6). repeat split; auto. lia.
Qed.

Lemma srt_endof lo hi l : srt lo hi l -> lo <= endof lo l.
Proof.
  revert lo. induction l as [|[b j] t IH]; intros lo H; cbn [srt endof] in *; [lia|].
  destruct H as (H1 & H2 & H3 & H4 & H5 & H6). specialize (IH _ H6). lia.
Qed.

Lemma srt_weaken lo lo' hi l : lo' <= lo -> srt lo hi l -> srt lo' hi l.
Proof. destruct l as [|[a k] t]; cbn [srt]; [tauto|]. intros H (H1 & H2). split; [lia|exact H2]. Qed.

Lemma srt_length lo hi l : srt lo hi l -> l <> [] -> 128 * Z.of_nat (length l) <= hi - lo.
Proof.
  revert lo. induction l as [|[a k] t IH]; intros lo H N; [contradiction|].
  cbn [srt length] in *. destruct H as (H1 & H2 & H3 & H4 & H5 & H6).
  assert (128 <= k) by (Z.to_euclidean_division_equations; lia).
  destruct t as [|c t'].
  - cbn [length]. lia.
  - assert (N' : c :: t' <> []) by discriminate. specialize (IH _ H6 N'). lia.
Qed.

Lemma fbyte_app l1 l2 x : fbyte (l1 ++ l2) x <-> fbyte l1 x \/ fbyte l2 x.
Proof.
  unfold fbyte. split.
  - intros (a & k & Hin & Hx). apply in_app_or in Hin. destruct Hin; [left|right]; eauto.
  - intros [(a & k & Hin & Hx)|(a & k & Hin & Hx)]; exists a, k; split; auto; apply in_or_app; auto.
Qed.

Lemma fbyte_cons a k l x : fbyte ((a, k) :: l) x <-> a <= x < a + k \/ fbyte l x.
Proof.
  unfold fbyte. split.
  - intros (b & j & [E|Hin] & Hx); [injection E as -> ->; left; exact Hx|right; eauto].
  - intros [Hx|(b & j & Hin & Hx)]; [exists a, k; split; [left; reflexivity|exact Hx]|].
    exists b, j. split; [right; exact Hin|exact Hx].
Qed.

Lemma fbyte_nil x : fbyte [] x <-> False.
Proof. unfold fbyte. split; [intros (a & k & [] & _)|tauto]. Qed.

Lemma fbyte_range lo hi l x : srt lo hi l -> fbyte l x -> lo < x < hi /\ x < endof lo l.
Proof.
  intros H (a & k & Hin & Hx).
  destruct (srt_in _ _ _ _ _ H Hin) as (I1 & I2 & I3 & I4 & I5 & I6). lia.
Qed.

(** ** The invariant *)

Definition chunk_ok (s : pool) (c : Z * Z) : Prop :=
  fst c mod 128 = 0 /\ p_base s <= fst c /\
  fst c + 128 * units (snd c) <= p_base s + p_size s /\
  0 <= snd c <= W64 - 128.

Record inv (s : pool) (live : chunks) (l : flist) : Prop := Inv
  { inv_seg : seg (p_mem s) (p_free s) l 0;
    inv_srt : srt (p_base s - 1) (p_base s + p_size s) l;
    inv_bytes : forall x, unused s live x <-> fbyte l x;
    inv_chunks : Forall (chunk_ok s) live;
    inv_apart : ForallOrdPairs apart live;
    inv_avail : p_avail s = fsum l;
    inv_sum : fsum l + held live = p_size s;
    inv_base : 0 < p_base s /\ p_base s mod 128 = 0;
    inv_size : 0 < p_size s /\ p_size s mod 128 = 0;
    inv_word : p_base s + p_size s < W64 }.

Lemma rd_ok s x : p_base s <= x -> x + 8 <= p_base s + p_size s -> x mod 8 = 0 ->
  rd s x = Some (p_mem s x).
Proof.
  intros H1 H2 H3. unfold rd, in_pool.
  replace (p_base s <=? x) with true by (symmetry; apply Z.leb_le; lia).
  replace (x + 8 <=? p_base s + p_size s) with true by (symmetry; apply Z.leb_le; lia).
  rewrite H3. reflexivity.
Qed.

Lemma wr_ok s x v : p_base s <= x -> x + 8 <= p_base s + p_size s -> x mod 8 = 0 ->
  wr s x v = Some (Pool (upd (p_mem s) x v) (p_base s) (p_size s) (p_free s) (p_avail s)).
Proof.
  intros H1 H2 H3. unfold wr, in_pool.
  replace (p_base s <=? x) with true by (symmetry; apply Z.leb_le; lia).
  replace (x + 8 <=? p_base s + p_size s) with true by (symmetry; apply Z.leb_le; lia).
  rewrite H3. reflexivity.
Qed.

Lemma mod8 a : a mod 128 = 0 -> a mod 8 = 0 /\ (a + 8) mod 8 = 0.
Proof. intros H. Z.to_euclidean_division_equations; lia. Qed.

Lemma mod128_ge k : k mod 128 = 0 -> 0 < k -> 128 <= k.
Proof. intros H1 H2. Z.to_euclidean_division_equations; lia. Qed.

Lemma mod128_add a b : a mod 128 = 0 -> b mod 128 = 0 -> (a + b) mod 128 = 0.
Proof. intros H1 H2. Z.to_euclidean_division_equations; lia. Qed.

Lemma mod128_sub a b : a mod 128 = 0 -> b mod 128 = 0 -> (a - b) mod 128 = 0.
Proof. intros H1 H2. Z.to_euclidean_division_equations; lia. Qed.

Lemma mod128_units n : (128 * units n) mod 128 = 0.
Proof. rewrite Z.mul_comm. apply Z.mod_mul. lia. Qed.

(** ** The two searches *)

Definition lastaddr (d : Z) (l : flist) : Z := last (map fst l) d.

Lemma last_cons (l : list Z) : forall a d, last (a :: l) d = last l a.
Proof.
  induction l as [|b t IH]; intros a d; [reflexivity|].
  change (last (a :: b :: t) d) with (last (b :: t) d). rewrite (IH b d), (IH b a). reflexivity.
Qed.

Lemma lastaddr_cons d a k l : lastaddr d ((a, k) :: l) = lastaddr a l.
Proof. unfold lastaddr. cbn [map fst]. apply last_cons. Qed.

Lemma lastaddr_snoc d l b j : lastaddr d (l ++ [(b, j)]) = b.
Proof. unfold lastaddr. rewrite map_app. cbn [map fst]. apply last_last. Qed.

Lemma find_fit_spec s size l : forall fuel prev ptr lo,
  seg (p_mem s) ptr l 0 -> srt lo (p_base s + p_size s) l -> p_base s - 1 <= lo ->
  0 < p_base s ->
  (length l < fuel)%nat ->
  (Forall (fun c => snd c < size) l /\
   exists q, find_fit fuel s size prev ptr = Some (q, 0, 0)) \/
  (exists l1 a k l2, l = l1 ++ (a, k) :: l2 /\ Forall (fun c => snd c < size) l1 /\
     size <= k /\
     find_fit fuel s size prev ptr = Some (lastaddr prev l1, a, k)).
Proof.
  induction l as [|[a k] t IH]; intros fuel prev ptr lo Hs Ht Hlo HB Hf.
  - destruct fuel as [|f]; [cbn in Hf; lia|]. cbn [seg] in Hs. subst ptr.
    left. split; [constructor|]. exists prev. reflexivity.
  - destruct fuel as [|f]; [cbn in Hf; lia|].
    cbn [seg srt] in *. destruct Hs as (-> & H2 & H3 & H4).
    destruct Ht as (T1 & T2 & T3 & T4 & T5 & T6).
    cbn [find_fit]. rewrite (proj2 (Z.eqb_neq a 0) H2).
    pose proof (mod8 _ T2) as [M1 M2]. pose proof (mod128_ge _ T4 T3).
    rewrite rd_ok by (auto; lia). cbn [bind]. rewrite H3.
    destruct (k <? size) eqn:E.
    + apply Z.ltb_lt in E. rewrite rd_ok by (auto; lia). cbn [bind].
      destruct (IH f a (p_mem s a) (a + k)) as [(F & q & Q)|(l1 & b & j & l2 & -> & F & J & Q)];
        try assumption; try lia; [cbn in Hf; lia| |].
      * left. split; [constructor; auto|]. exists q. exact Q.
      * right. exists ((a, k) :: l1), b, j, l2. repeat split; auto.
        rewrite lastaddr_cons. exact Q.
    + apply Z.ltb_ge in E. right. exists [], a, k, t. repeat split; auto.
Qed.

Lemma find_place_spec s rp l : forall fuel prev ptr lo,
  seg (p_mem s) ptr l 0 -> srt lo (p_base s + p_size s) l -> p_base s - 1 <= lo ->
  0 < p_base s ->
  (length l < fuel)%nat ->
  exists l1 l2, l = l1 ++ l2 /\ Forall (fun c => fst c < rp) l1 /\
     (match l2 with
      | [] => find_place fuel s rp prev ptr = Some (lastaddr prev l1, 0)
      | (a, k) :: _ => rp <= a /\ find_place fuel s rp prev ptr = Some (lastaddr prev l1, a)
      end).
Proof.
  induction l as [|[a k] t IH]; intros fuel prev ptr lo Hs Ht Hlo HB Hf.
  - destruct fuel as [|f]; [cbn in Hf; lia|]. cbn [seg] in Hs. subst ptr.
    exists [], []. repeat split; auto.
  - destruct fuel as [|f]; [cbn in Hf; lia|].
    cbn [seg srt] in *. destruct Hs as (-> & H2 & H3 & H4).
    destruct Ht as (T1 & T2 & T3 & T4 & T5 & T6).
    cbn [find_place]. rewrite (proj2 (Z.eqb_neq a 0) H2).
    pose proof (mod8 _ T2) as [M1 M2]. pose proof (mod128_ge _ T4 T3).
    destruct (a <? rp) eqn:E; cbn [negb andb].
    + apply Z.ltb_lt in E. rewrite rd_ok by (auto; lia). cbn [bind].
      destruct (IH f a (p_mem s a) (a + k)) as (l1 & l2 & -> & F & Q);
        try assumption; try lia; [cbn in Hf; lia|].
      exists ((a, k) :: l1), l2. split; [reflexivity|]. split; [constructor; auto|].
      rewrite lastaddr_cons. exact Q.
    + apply Z.ltb_ge in E. exists [], ((a, k) :: t). repeat split; auto.
Qed.

Lemma fuel_enough s live l : inv s live l -> (length l < pool_fuel s)%nat.
Proof.
  intros H. pose proof (inv_srt _ _ _ H) as S. unfold pool_fuel.
  destruct l as [|c t]; [cbn; lia|].
  apply srt_length in S; [|discriminate].
  destruct (inv_size _ _ _ H) as [Z1 Z2].
  apply Nat2Z.inj_lt. rewrite !Nat2Z.inj_succ, Z2Nat.id by (apply Z.div_pos; lia).
  Z.to_euclidean_division_equations; lia.
Qed.

(** ** Allocation *)

Lemma used_cons c live x : used (c :: live) x <-> chunk_byte c x \/ used live x.
Proof.
  unfold used. split.
  - intros (d & [->|Hin] & Hx); [left; exact Hx|right; eauto].
  - intros [Hx|(d & Hin & Hx)]; [exists c|exists d]; split; auto; [left; auto|right; auto].
Qed.

Lemma upd_eq m x v : upd m x v x = v.
Proof. unfold upd. rewrite Z.eqb_refl. reflexivity. Qed.

Lemma upd_ne m x v y : y <> x -> upd m x v y = m y.
Proof. intros H. unfold upd. rewrite (proj2 (Z.eqb_neq y x) H). reflexivity. Qed.

Lemma u64_id z : 0 <= z < W64 -> u64 z = z.
Proof. intros H. unfold u64. apply Z.mod_small. exact H. Qed.

Lemma held_nonneg live : 0 <= held live.
Proof.
  induction live as [|c t IH]; cbn [held fold_right]; [lia|].
  fold (held t). pose proof (units_pos (snd c)). lia.
Qed.

(** Facts about the neighbours of a block of the free list. *)
Lemma srt_split lo hi l1 a k l2 :
  srt lo hi (l1 ++ (a, k) :: l2) ->
  (lo < a /\ a mod 128 = 0 /\ 128 <= k /\ k mod 128 = 0 /\ a + k <= hi) /\
  srt lo hi l1 /\ endof lo l1 < a /\ srt (a + k) hi l2 /\
  (forall b j, In (b, j) l1 -> lo < b /\ b mod 128 = 0 /\ 128 <= j /\ j mod 128 = 0 /\ b + j < a) /\
  (forall b j, In (b, j) l2 -> a + k < b /\ b mod 128 = 0 /\ 128 <= j /\ j mod 128 = 0 /\ b + j <= hi).
Proof.
  intros H. apply srt_app in H. destruct H as [H1 H2]. cbn [srt] in H2.
  destruct H2 as (A1 & A2 & A3 & A4 & A5 & A6).
  pose proof (srt_endof _ _ _ H1). pose proof (mod128_ge _ A4 A3).
  split; [repeat split; auto; lia|]. split; [exact H1|]. split; [exact A1|].
  split; [exact A6|]. split.
  - intros b j Hb. destruct (srt_in _ _ _ _ _ H1 Hb) as (I1 & I2 & I3 & I4 & I5 & I6).
    pose proof (mod128_ge _ I4 I3). repeat split; auto; lia.
  - intros b j Hb. destruct (srt_in _ _ _ _ _ A6 Hb) as (I1 & I2 & I3 & I4 & I5 & I6).
    pose proof (mod128_ge _ I4 I3). repeat split; auto; lia.
Qed.

Lemma snoc_cases (l : flist) : l = [] \/ exists l' b j, l = l' ++ [(b, j)].
Proof.
  destruct l as [|c t]; [left; reflexivity|right].
  destruct (@exists_last _ (c :: t)) as (l' & [b j] & E'); [discriminate|].
  exists l', b, j; exact E'.
Qed.

(** Making the last block of [l1] (or [free_]) point to [v]. *)
Definition relink (s : pool) (l1 : flist) (v : Z) : pool :=
  match l1 with
  | [] => set_free s v
  | _ => Pool (upd (p_mem s) (lastaddr 0 l1) v) (p_base s) (p_size s) (p_free s) (p_avail s)
  end.

Lemma relink_snoc s l b j v :
  relink s (l ++ [(b, j)]) v =
  Pool (upd (p_mem s) b v) (p_base s) (p_size s) (p_free s) (p_avail s).
Proof.
  unfold relink. rewrite lastaddr_snoc. destruct l as [|c t]; reflexivity.
Qed.

Lemma relink_code s l1 v lo :
  srt lo (p_base s + p_size s) l1 -> p_base s - 1 <= lo -> 0 < p_base s ->
  (if lastaddr 0 l1 =? 0 then Some (set_free s v) else wr s (lastaddr 0 l1) v)
  = Some (relink s l1 v).
Proof.
  intros H Hlo HB. destruct (snoc_cases l1) as [->|(l & b & j & ->)].
  - reflexivity.
  - rewrite relink_snoc, lastaddr_snoc.
    destruct (srt_split _ _ _ _ _ _ H) as ((A1 & A2 & A3 & A4 & A5) & _).
    rewrite (proj2 (Z.eqb_neq b 0)) by lia.
    pose proof (mod8 _ A2). rewrite wr_ok by (try tauto; lia). reflexivity.
Qed.

Lemma relink_seg s l1 v x lo hi :
  srt lo hi l1 ->
  seg (p_mem s) (p_free s) l1 x ->
  seg (p_mem (relink s l1 v)) (p_free (relink s l1 v)) l1 v.
Proof.
  intros H Hs. destruct (snoc_cases l1) as [->|(l & b & j & ->)].
  - reflexivity.
  - rewrite relink_snoc. cbn [p_mem p_free]. apply seg_app in Hs.
    destruct Hs as (y & Hy & Hb). cbn [seg] in Hb. destruct Hb as (-> & B1 & B2 & B3).
    destruct (srt_split _ _ _ _ _ _ H) as ((A1 & A2 & A3 & A4 & A5) & _ & _ & _ & F & _).
    apply seg_app. exists b. split.
    + apply (seg_frame (p_mem s)); [|exact Hy]. intros a k Ha.
      destruct (F _ _ Ha) as (F1 & F2 & F3 & F4 & F5). rewrite !upd_ne by lia. tauto.
    + cbn [seg]. rewrite upd_eq, upd_ne by lia. auto.
Qed.

Lemma relink_mem s l1 v y :
  (forall a k, In (a, k) l1 -> y <> a) -> p_mem (relink s l1 v) y = p_mem s y.
Proof.
  intros H. destruct (snoc_cases l1) as [->|(l & b & j & ->)]; [reflexivity|].
  rewrite relink_snoc. cbn [p_mem]. apply upd_ne. apply (H b j). apply in_or_app. right. left. reflexivity.
Qed.

Lemma relink_base s l1 v : p_base (relink s l1 v) = p_base s.
Proof. destruct l1; reflexivity. Qed.
Lemma relink_size s l1 v : p_size (relink s l1 v) = p_size s.
Proof. destruct l1; reflexivity. Qed.
Lemma relink_avail s l1 v : p_avail (relink s l1 v) = p_avail s.
Proof. destruct l1; reflexivity. Qed.

Lemma held_cons c live : held (c :: live) = 128 * units (snd c) + held live.
Proof. reflexivity. Qed.


Lemma alloc_inv s live l n :
  inv s live l -> 0 <= n <= W64 - 128 ->
  (allocate s n = Some (s, Bad_alloc) /\ Forall (fun c => snd c < 128 * units n) l) \/
  (exists s' a k l', allocate s n = Some (s', Got a) /\ inv s' ((a, n) :: live) l' /\
     p_base s' = p_base s /\ p_size s' = p_size s /\
     In (a, k) l /\ 128 * units n <= k /\
     (forall x, used live x -> p_mem s' x = p_mem s x)).
Proof.
  intros I Hn. unfold allocate. rewrite (round128_units n Hn).
  set (r := 128 * units n). pose proof (units_pos n) as Hu.
  assert (Hr : 128 <= r) by lia. assert (Mr : r mod 128 = 0) by apply mod128_units.
  pose proof (fuel_enough _ _ _ I) as Hfuel.
  destruct I as [Iseg Isrt Ibytes Ich Iap Iav Isum [IB1 IB2] [IS1 IS2] IW].
  destruct (find_fit_spec s r l (pool_fuel s) 0 (p_free s) (p_base s - 1) Iseg Isrt
              (Z.le_refl _) IB1 Hfuel) as [(F & q & Q)|(l1 & a & k & l2 & E & F & K & Q)].
  - left. rewrite Q. cbn [bind]. split; [reflexivity|exact F].
  - right. rewrite Q. cbn [bind]. subst l.
    destruct (srt_split _ _ _ _ _ _ Isrt) as ((A1 & A2 & A3 & A4 & A5) & S1 & S2 & S3 & F1 & F2).
    apply seg_app in Iseg. destruct Iseg as (y & Sg1 & Sg2).
    cbn [seg] in Sg2. destruct Sg2 as (-> & _ & Sg3 & Sg4).
    rewrite (proj2 (Z.eqb_neq a 0)) by lia. pose proof (mod8 _ A2) as [M1 M2].
    rewrite fsum_app in Iav, Isum. cbn [fsum] in Iav, Isum.
    pose proof (fsum_srt _ _ _ S1) as P1. pose proof (fsum_srt _ _ _ S3) as P2.
    pose proof (held_nonneg live) as P3.
    rewrite (u64_id (p_avail s - r)) by lia.
    set (s1 := set_avail s (p_avail s - r)).
    rewrite rd_ok by (cbn [s1 set_avail p_base p_size]; auto; lia). cbn [bind].
    assert (BY : forall l', (forall x, fbyte l' x <-> fbyte (l1 ++ (a, k) :: l2) x /\ ~ (a <= x < a + r)) ->
              forall x, unused s ((a, n) :: live) x <-> fbyte l' x).
    { intros l' Hl' x. rewrite Hl', <- Ibytes. unfold unused. rewrite used_cons.
      unfold chunk_byte. cbn [fst snd]. fold r. tauto. }
    assert (CH : Forall (chunk_ok s) ((a, n) :: live)).
    { constructor; [|exact Ich]. unfold chunk_ok. cbn [fst snd]. fold r. repeat split; auto; lia. }
    assert (AP : ForallOrdPairs apart ((a, n) :: live)).
    { constructor; [|exact Iap]. apply Forall_forall. intros c Hc x [X1 X2].
      unfold chunk_byte in X1. cbn [fst snd] in X1. fold r in X1.
      assert (Fx : fbyte (l1 ++ (a, k) :: l2) x).
      { apply fbyte_app. right. apply fbyte_cons. left. lia. }
      apply Ibytes in Fx. destruct Fx as [_ Fx]. apply Fx. exists c. split; auto. }
    assert (UB : forall x, used live x -> ~ fbyte (l1 ++ (a, k) :: l2) x).
    { intros x Ux Fx. apply Ibytes in Fx. destruct Fx as [_ Fx]. auto. }
    destruct (k =? r) eqn:E.
    + apply Z.eqb_eq in E.
      rewrite (relink_code s1 l1 _ (p_base s - 1)) by (cbn [s1 set_avail p_base p_size]; auto; lia).
      cbn [bind]. exists (relink s1 l1 (p_mem s1 a)), a, k, (l1 ++ l2).
      split; [reflexivity|].
      assert (MEM : forall x, (forall b j, In (b, j) l1 -> x <> b) ->
                p_mem (relink s1 l1 (p_mem s1 a)) x = p_mem s x).
      { intros x Hx. rewrite relink_mem by exact Hx. reflexivity. }
      split; [|split; [rewrite relink_base; reflexivity|split; [rewrite relink_size; reflexivity|split; [|split; [exact K|]]]]].
      * constructor.
        -- apply seg_app. exists (p_mem s1 a). split.
           ++ apply (relink_seg s1 l1 (p_mem s1 a) a (p_base s - 1) (p_base s + p_size s)); auto.
           ++ apply (seg_frame (p_mem s)); [|exact Sg4]. intros b j Hb.
              destruct (F2 _ _ Hb) as (G1 & G2 & G3 & G4 & G5).
              split; apply MEM; intros b' j' Hb';
                destruct (F1 _ _ Hb') as (H1 & H2 & H3 & H4 & H5); lia.
        -- rewrite relink_base, relink_size. change (p_base s1) with (p_base s). change (p_size s1) with (p_size s).
           apply srt_app. split; [exact S1|].
           apply (srt_weaken (a + k)); [lia|exact S3].
        -- intros x. assert (U : unused (relink s1 l1 (p_mem s1 a)) ((a, n) :: live) x
                                 <-> unused s ((a, n) :: live) x)
             by (unfold unused; rewrite relink_base, relink_size; reflexivity).
           rewrite U. apply BY. clear x U. intros x. rewrite !fbyte_app, fbyte_cons. subst r.
           split.
           ++ intros [X|X]; (split; [tauto|]).
              ** pose proof (fbyte_range _ _ _ _ S1 X). lia.
              ** pose proof (fbyte_range _ _ _ _ S3 X). lia.
           ++ intros [[X|[X|X]] Y]; [tauto|lia|tauto].
        -- eapply Forall_impl; [|exact CH]. intros c Hc. unfold chunk_ok in *.
           rewrite relink_base, relink_size. exact Hc.
        -- exact AP.
        -- rewrite relink_avail, fsum_app. cbn [s1 set_avail p_avail]. lia.
        -- rewrite fsum_app, held_cons, relink_size. cbn [snd s1 set_avail p_size]. fold r. lia.
        -- rewrite relink_base. split; auto.
        -- rewrite relink_size. split; auto.
        -- rewrite relink_base, relink_size. exact IW.
      * apply in_or_app. right. left. reflexivity.
      * intros x Ux. apply MEM. intros b j Hb ->. apply (UB b Ux). apply fbyte_app. left.
        exists b, j. split; [exact Hb|]. destruct (F1 _ _ Hb) as (H1 & H2 & H3 & H4 & H5). lia.
    + apply Z.eqb_neq in E.
      assert (K2 : r + 128 <= k).
      { pose proof (mod128_sub _ _ A4 Mr) as D. pose proof (mod128_ge _ D). lia. }
      rewrite (relink_code s1 l1 _ (p_base s - 1)) by (cbn [s1 set_avail p_base p_size]; auto; lia).
      cbn [bind]. set (s2 := relink s1 l1 (a + r)).
      assert (B2 : p_base s2 = p_base s) by (unfold s2; rewrite relink_base; reflexivity).
      assert (Z2 : p_size s2 = p_size s) by (unfold s2; rewrite relink_size; reflexivity).
      assert (V2 : p_avail s2 = p_avail s - r) by (unfold s2; rewrite relink_avail; reflexivity).
      assert (MEM : forall x, (forall b j, In (b, j) l1 -> x <> b) -> p_mem s2 x = p_mem s x).
      { intros x Hx. unfold s2. rewrite relink_mem by exact Hx. reflexivity. }
      rewrite rd_ok by (rewrite ?B2, ?Z2; auto; lia). cbn [bind].
      pose proof (mod8 _ (mod128_add _ _ A2 Mr)) as [M3 M4].
      rewrite wr_ok by (rewrite ?B2, ?Z2; auto; lia). cbn [bind].
      rewrite wr_ok by (cbn [p_base p_size]; rewrite ?B2, ?Z2; auto; lia). cbn [bind].
      cbn [p_mem p_base p_size p_free p_avail].
      rewrite (u64_id (k - r)) by lia.
      assert (Ma : p_mem s2 a = p_mem s a).
      { apply MEM. intros b j Hb. destruct (F1 _ _ Hb) as (H1 & H2 & H3 & H4 & H5). lia. }
      rewrite Ma.
      eexists _, a, k, (l1 ++ (a + r, k - r) :: l2).
      split; [reflexivity|]. cbn [p_mem p_base p_size p_free p_avail].
      split; [|split; [exact B2|split; [exact Z2|split; [|split; [exact K|]]]]].
      * constructor; cbn [p_mem p_base p_size p_free p_avail].
        -- apply seg_app. exists (a + r). split.
           ++ apply (seg_frame (p_mem s2)).
              ** intros b j Hb. destruct (F1 _ _ Hb) as (H1 & H2 & H3 & H4 & H5).
                 rewrite !upd_ne by lia. auto.
              ** apply (relink_seg s1 l1 (a + r) a (p_base s - 1) (p_base s + p_size s)); auto.
           ++ cbn [seg]. split; [reflexivity|]. split; [lia|]. split; [apply upd_eq|].
              rewrite upd_ne by lia. rewrite upd_eq.
              apply (seg_frame (p_mem s)); [|exact Sg4]. intros b j Hb.
              destruct (F2 _ _ Hb) as (G1 & G2 & G3 & G4 & G5). rewrite !upd_ne by lia.
              split; apply MEM; intros b' j' Hb';
                destruct (F1 _ _ Hb') as (H1 & H2 & H3 & H4 & H5); lia.
        -- rewrite B2, Z2. apply srt_app. split; [exact S1|]. cbn [srt].
           split; [lia|]. split; [apply mod128_add; auto|]. split; [lia|].
           split; [apply mod128_sub; auto|]. split; [lia|].
           replace (a + r + (k - r)) with (a + k) by lia. exact S3.
        -- intros x. assert (U : forall m f v, unused (Pool m (p_base s2) (p_size s2) f v) ((a, n) :: live) x
                                 <-> unused s ((a, n) :: live) x)
             by (intros; unfold unused; cbn [p_base p_size]; rewrite B2, Z2; reflexivity).
           rewrite U. apply BY. clear x U. intros x. rewrite !fbyte_app, !fbyte_cons.
           split.
           ++ intros [X|[X|X]].
              ** pose proof (fbyte_range _ _ _ _ S1 X). split; [tauto|lia].
              ** split; [right; left; lia|lia].
              ** pose proof (fbyte_range _ _ _ _ S3 X). split; [tauto|lia].
           ++ intros [[X|[X|X]] Y]; [tauto|right; left; lia|tauto].
        -- eapply Forall_impl; [|exact CH]. intros c Hc. unfold chunk_ok in *. cbn [p_base p_size].
           rewrite B2, Z2. exact Hc.
        -- exact AP.
        -- rewrite fsum_app. cbn [fsum]. lia.
        -- rewrite fsum_app, held_cons. cbn [fsum snd]. fold r. lia.
        -- rewrite B2. split; auto.
        -- rewrite Z2. split; auto.
        -- rewrite B2, Z2. exact IW.
      * apply in_or_app. right. left. reflexivity.
      * intros x Ux.
        assert (NX : ~ (a <= x < a + k)).
        { intros X. apply (UB x Ux). apply fbyte_app. right. apply fbyte_cons. left. exact X. }
        rewrite !upd_ne by lia. apply MEM.
        intros b j Hb ->. apply (UB b Ux). apply fbyte_app. left.
        exists b, j. split; [exact Hb|]. destruct (F1 _ _ Hb) as (H1 & H2 & H3 & H4 & H5). lia.
Qed.

(** ** Deallocation *)

Lemma chunk_nonempty c : chunk_byte c (fst c).
Proof. unfold chunk_byte. pose proof (units_pos (snd c)). lia. Qed.

Lemma apart_in_remove live c d :
  ForallOrdPairs apart live -> In c live -> In d live -> c <> d -> apart c d.
Proof.
  intros H Hc Hd N. induction H as [|e t He Ht IH]; [destruct Hc|].
  rewrite Forall_forall in He.
  destruct Hc as [->|Hc], Hd as [->|Hd].
  - contradiction.
  - apply He; exact Hd.
  - intros x [X1 X2]. apply (He c Hc x). tauto.
  - apply IH; auto.
Qed.

Lemma used_remove live c x :
  ForallOrdPairs apart live -> In c live ->
  (used (remove chunk_eq_dec c live) x <-> used live x /\ ~ chunk_byte c x).
Proof.
  intros H Hc. split.
  - intros (d & Hd & Hx). apply in_remove in Hd. destruct Hd as [Hd N].
    split; [exists d; auto|]. intros Cx.
    apply (apart_in_remove _ _ _ H Hc Hd (not_eq_sym N) x). auto.
  - intros [(d & Hd & Hx) N]. exists d. split; [|exact Hx].
    apply in_in_remove; [intros ->; auto|exact Hd].
Qed.

Lemma apart_remove live c :
  ForallOrdPairs apart live -> ForallOrdPairs apart (remove chunk_eq_dec c live).
Proof.
  intros H. induction H as [|e t He Ht IH]; [constructor|].
  cbn [remove]. destruct (chunk_eq_dec c e); [exact IH|].
  constructor; [|exact IH]. rewrite Forall_forall in *. intros d Hd.
  apply in_remove in Hd. apply He. tauto.
Qed.

Lemma forall_remove (P : Z * Z -> Prop) live c :
  Forall P live -> Forall P (remove chunk_eq_dec c live).
Proof.
  intros H. rewrite Forall_forall in *. intros d Hd. apply in_remove in Hd. apply H. tauto.
Qed.

Lemma remove_absent live c : ~ In c live -> remove chunk_eq_dec c live = live.
Proof. intros H. apply notin_remove. exact H. Qed.

Lemma held_remove live c :
  ForallOrdPairs apart live -> In c live ->
  held (remove chunk_eq_dec c live) = held live - 128 * units (snd c).
Proof.
  intros H Hc. induction H as [|e t He Ht IH]; [destruct Hc|].
  cbn [remove]. rewrite held_cons. destruct (chunk_eq_dec c e) as [->|N].
  - rewrite remove_absent; [lia|]. intros Hin. rewrite Forall_forall in He.
    apply (He e Hin (fst e)). split; apply chunk_nonempty.
  - destruct Hc as [->|Hc]; [contradiction|]. rewrite held_cons, (IH Hc). lia.
Qed.

Ltac zl :=
  repeat match goal with
  | H : context [_ mod _] |- _ => clear H
  | H : Forall _ _ |- _ => clear H
  end; lia.

Lemma free_inv s live l p n :
  inv s live l -> In (p, n) live -> good_free s live p n ->
  exists s' l', deallocate s p n = Some s' /\
    inv s' (remove chunk_eq_dec (p, n) live) l' /\
    p_base s' = p_base s /\ p_size s' = p_size s /\
    (forall x, used (remove chunk_eq_dec (p, n) live) x -> p_mem s' x = p_mem s x).
Proof.
  intros I Hin [Gabove Gbelow].
  pose proof (fuel_enough _ _ _ I) as Hfuel.
  destruct I as [Iseg Isrt Ibytes Ich Iap Iav Isum [IB1 IB2] [IS1 IS2] IW].
  pose proof (proj1 (Forall_forall _ _) Ich _ Hin) as (C1 & C2 & C3 & C4).
  cbn [fst snd] in C1, C2, C3, C4.
  unfold deallocate. rewrite (round128_units n C4).
  set (r := 128 * units n) in *. pose proof (units_pos n) as Hu.
  assert (Hr : 128 <= r) by zl. assert (Mr : r mod 128 = 0) by apply mod128_units.
  assert (NF : forall x, p <= x < p + r -> ~ fbyte l x).
  { intros x Hx Fx. apply Ibytes in Fx. destruct Fx as [_ Fx]. apply Fx.
    exists (p, n). split; [exact Hin|]. unfold chunk_byte. cbn [fst snd]. fold r. exact Hx. }
  destruct (find_place_spec s p l (pool_fuel s) 0 (p_free s) (p_base s - 1) Iseg Isrt
              (Z.le_refl _) IB1 Hfuel) as (l1 & l2 & E & F & Q).
  (* there is a block above *)
  assert (E2 : exists c j t, l2 = (c, j) :: t).
  { destruct l2 as [|[c j] t]; [|eauto]. exfalso. rewrite app_nil_r in E. subst l1.
    destruct Gabove as (x & X1 & X2). apply Ibytes in X2. destruct X2 as (a & k & Ha & Hx).
    rewrite Forall_forall in F. specialize (F _ Ha). cbn [fst] in F.
    apply (NF p ltac:(zl)). exists a, k. split; [exact Ha|zl]. }
  destruct E2 as (c & j & t & ->). destruct Q as [Qc Q]. rewrite Q. cbn [bind]. subst l.
  destruct (srt_split _ _ _ _ _ _ Isrt) as ((A1 & A2 & A3 & A4 & A5) & S1 & S2 & S3 & F1 & F2).
  apply seg_app in Iseg. destruct Iseg as (y & Sg1 & Sg2).
  cbn [seg] in Sg2. destruct Sg2 as (-> & Sg2' & Sg3 & Sg4).
  rewrite (proj2 (Z.eqb_neq c 0)) by exact Sg2'.
  pose proof (mod8 _ A2) as [M1 M2]. pose proof (mod8 _ C1) as [M3 M4].
  assert (Hc : p + r <= c).
  { destruct (Z_lt_le_dec c (p + r)) as [L|]; [|assumption]. exfalso.
    apply (NF c ltac:(zl)). apply fbyte_app. right. apply fbyte_cons. left. zl. }
  assert (H1p : forall b i, In (b, i) l1 -> b + i <= p).
  { intros b i Hb. destruct (Z_lt_le_dec p (b + i)) as [L|]; [|assumption]. exfalso.
    rewrite Forall_forall in F. specialize (F _ Hb). cbn [fst] in F.
    apply (NF p ltac:(zl)). apply fbyte_app. left. exists b, i. split; [exact Hb|zl]. }
  rewrite fsum_app in Iav, Isum. cbn [fsum] in Iav, Isum.
  pose proof (fsum_srt _ _ _ S1) as P1. pose proof (fsum_srt _ _ _ S3) as P2.
  pose proof (held_nonneg live) as P3.
  pose proof (held_remove _ _ Iap Hin) as HR. cbn [snd] in HR. fold r in HR.
  pose proof (held_nonneg (remove chunk_eq_dec (p, n) live)) as P4.
  (* the block written at p and what follows it *)
  assert (PH : exists w ksz u,
    (if r =? c - p
     then next <- rd s c ;; s0 <- wr s p next ;; psz <- rd s0 (c + 8) ;;
          wr s0 (p + 8) (u64 (r + psz))
     else s0 <- wr s p c ;; wr s0 (p + 8) r)
    = Some (Pool (upd (upd (p_mem s) p w) (p + 8) ksz) (p_base s) (p_size s) (p_free s) (p_avail s)) /\
    seg (p_mem s) w u 0 /\ (forall b i, In (b, i) u -> p + r < b \/ (b = c /\ p + r < c)) /\
    (forall b i, In (b, i) u -> p + ksz < b) /\
    128 <= ksz /\ ksz mod 128 = 0 /\ p + ksz <= p_base s + p_size s /\
    srt (p + ksz) (p_base s + p_size s) u /\
    (forall x, fbyte ((p, ksz) :: u) x <-> fbyte ((c, j) :: t) x \/ p <= x < p + r) /\
    fsum ((p, ksz) :: u) = fsum ((c, j) :: t) + r /\
    ((r =? c - p) = true -> w = p_mem s c /\ ksz = r + j) /\
    ((r =? c - p) = false -> w = c /\ ksz = r)).
  { destruct (r =? c - p) eqn:Er.
    - apply Z.eqb_eq in Er. exists (p_mem s c), (r + j), t.
      rewrite rd_ok by (auto; zl). cbn [bind].
      rewrite wr_ok by (auto; zl). cbn [bind].
      rewrite rd_ok by (cbn [p_base p_size]; auto; zl). cbn [bind p_mem].
      rewrite wr_ok by (cbn [p_base p_size]; auto; zl). cbn [p_mem p_base p_size p_free p_avail].
      rewrite upd_ne by zl. rewrite Sg3. rewrite (u64_id (r + j)) by zl.
      split; [reflexivity|]. split; [exact Sg4|].
      split; [intros b i Hb; destruct (F2 _ _ Hb) as (G1 & G2 & G3 & G4 & G5); zl|].
      split; [intros b i Hb; destruct (F2 _ _ Hb) as (G1 & G2 & G3 & G4 & G5); zl|].
      split; [zl|]. split; [apply mod128_add; auto|]. split; [zl|].
      split; [replace (p + (r + j)) with (c + j) by zl; exact S3|].
      split; [intros x; rewrite !fbyte_cons; split; [intros [X|X]|intros [[X|X]|X]]; try tauto; try zl|].
      split; [cbn [fsum]; zl|]. split; [auto|discriminate].
    - apply Z.eqb_neq in Er. exists c, r, ((c, j) :: t).
      rewrite wr_ok by (auto; zl). cbn [bind].
      rewrite wr_ok by (cbn [p_base p_size]; auto; zl). cbn [p_mem p_base p_size p_free p_avail].
      split; [reflexivity|]. split; [cbn [seg]; auto|].
      assert (L : forall b i, In (b, i) ((c, j) :: t) -> p + r < b).
      { intros b i [Eb|Hb]; [injection Eb as -> ->; zl|].
        destruct (F2 _ _ Hb) as (G1 & G2 & G3 & G4 & G5). zl. }
      split; [intros b i Hb; left; apply (L _ _ Hb)|].
      split; [exact L|]. split; [zl|]. split; [exact Mr|]. split; [zl|].
      split; [cbn [srt]; repeat split; auto; zl|].
      split; [intros x; rewrite !fbyte_cons; tauto|].
      split; [cbn [fsum]; zl|]. split; [discriminate|auto]. }
  destruct PH as (w & ksz & u & PHc & Pseg & _ & Pu & Pk & Pkm & Pend & Psrt & Pby & Psum & _ & _).
  set (s1 := Pool (upd (upd (p_mem s) p w) (p + 8) ksz) (p_base s) (p_size s) (p_free s) (p_avail s)) in *.
  assert (PsumV : ksz + fsum u = j + fsum t + r) by (cbn [fsum] in Psum; zl).
  pose proof (fsum_srt _ _ _ Psrt) as P5.
  assert (MEM1 : forall x, ~ (p <= x < p + r) -> p_mem s1 x = p_mem s x).
  { intros x Hx. cbn [s1 p_mem]. rewrite !upd_ne by zl. reflexivity. }
  assert (Sgl1 : seg (p_mem s1) (p_free s1) l1 c).
  { apply (seg_frame (p_mem s)); [|exact Sg1]. intros b i Hb. pose proof (H1p _ _ Hb).
    destruct (F1 _ _ Hb) as (G1 & G2 & G3 & G4 & G5). split; apply MEM1; zl. }
  assert (Sgp : seg (p_mem s1) p ((p, ksz) :: u) 0).
  { cbn [seg]. split; [reflexivity|]. split; [zl|].
    cbn [s1 p_mem]. split; [apply upd_eq|]. rewrite upd_ne by zl. rewrite upd_eq.
    apply (seg_frame (p_mem s)); [|exact Pseg]. intros b i Hb. specialize (Pu _ _ Hb).
    rewrite !upd_ne by zl. auto. }
  assert (UR : forall x, used (remove chunk_eq_dec (p, n) live) x <-> used live x /\ ~ (p <= x < p + r)).
  { intros x. rewrite (used_remove _ _ _ Iap Hin). unfold chunk_byte. cbn [fst snd]. fold r. reflexivity. }
  assert (UF : forall x, used live x -> ~ fbyte (l1 ++ (c, j) :: t) x).
  { intros x Ux Fx. apply Ibytes in Fx. destruct Fx as [_ Fx]. auto. }
  assert (BY : forall l', (forall x, fbyte l' x <-> fbyte (l1 ++ (c, j) :: t) x \/ p <= x < p + r) ->
            forall x, unused s (remove chunk_eq_dec (p, n) live) x <-> fbyte l' x).
  { intros l' Hl' x. rewrite Hl', <- Ibytes. unfold unused. rewrite UR. split.
    - intros [X1 X2]. destruct (Z_lt_le_dec x p); [left; split; [exact X1|]; intros Ux; apply X2; split; [exact Ux|zl]|].
      destruct (Z_lt_le_dec x (p + r)); [right; zl|left].
      split; [exact X1|]; intros Ux; apply X2; split; [exact Ux|zl].
    - intros [[X1 X2]|X]; split; [exact X1|tauto|zl|]. intros [_ Y]. zl. }
  (* whichever list results, the rest of the invariant *)
  assert (FIN : forall s2 l',
    p_base s2 = p_base s -> p_size s2 = p_size s -> p_avail s2 = p_avail s ->
    seg (p_mem s2) (p_free s2) l' 0 ->
    srt (p_base s - 1) (p_base s + p_size s) l' ->
    (forall x, fbyte l' x <-> fbyte (l1 ++ (c, j) :: t) x \/ p <= x < p + r) ->
    fsum l' = fsum l1 + j + fsum t + r ->
    (forall x, used live x -> ~ (p <= x < p + r) -> p_mem s2 x = p_mem s x) ->
    exists s' l'', Some (set_avail s2 (u64 (p_avail s2 + r))) = Some s' /\
      inv s' (remove chunk_eq_dec (p, n) live) l'' /\
      p_base s' = p_base s /\ p_size s' = p_size s /\
      (forall x, used (remove chunk_eq_dec (p, n) live) x -> p_mem s' x = p_mem s x)).
  { intros s2 l' B2 Z2 V2 Sg2 St2 By2 Su2 Me2.
    eexists _, l'. split; [reflexivity|]. cbn [set_avail p_base p_size p_mem].
    split; [|split; [exact B2|split; [exact Z2|]]].
    - constructor; cbn [set_avail p_base p_size p_mem p_free p_avail].
      + exact Sg2.
      + rewrite B2, Z2. exact St2.
      + intros x. rewrite <- (BY l' By2 x). unfold unused. cbn [set_avail p_base p_size].
        rewrite B2, Z2. reflexivity.
      + apply forall_remove. eapply Forall_impl; [|exact Ich]. intros d Hd. unfold chunk_ok in *.
        cbn [set_avail p_base p_size]. rewrite B2, Z2. exact Hd.
      + apply apart_remove. exact Iap.
      + rewrite V2, u64_id by zl. zl.
      + rewrite HR, Z2. zl.
      + rewrite B2. split; auto.
      + rewrite Z2. split; auto.
      + rewrite B2, Z2. exact IW.
    - intros x Ux. apply UR in Ux. destruct Ux as [Ux Nx]. apply Me2; auto. }
  destruct (snoc_cases l1) as [->|(l0 & b & i & ->)].
  - (* at the front *)
    cbn [lastaddr map last]. cbn [Z.eqb].
    cbn [seg] in Sg1. rewrite Sg1, Z.eqb_refl. cbn [bind].
    rewrite (proj2 (Z.leb_le r (c - p))) by zl. cbn [bind].
    assert (CODE : (if r =? c - p
       then next <- rd s c ;; s0 <- wr s p next ;; psz <- rd s0 (c + 8) ;;
            s3 <- wr s0 (p + 8) (u64 (r + psz)) ;; Some (set_free s3 p)
       else s0 <- wr s p c ;; s3 <- wr s0 (p + 8) r ;; Some (set_free s3 p))
       = Some (set_free s1 p)).
    { destruct (r =? c - p).
      - destruct (rd s c) as [nx|]; cbn [bind] in *; [|discriminate PHc].
        destruct (wr s p nx) as [s0|]; cbn [bind] in *; [|discriminate PHc].
        destruct (rd s0 (c + 8)) as [ps|]; cbn [bind] in *; [|discriminate PHc].
        rewrite PHc. reflexivity.
      - destruct (wr s p c) as [s0|]; cbn [bind] in *; [|discriminate PHc].
        rewrite PHc. reflexivity. }
    rewrite CODE. cbn [bind].
    apply (FIN (set_free s1 p) ((p, ksz) :: u)); try reflexivity.
    + exact Sgp.
    + cbn [srt]. repeat split; auto; zl.
    + exact Pby.
    + cbn [fsum]. zl.
    + intros x _ Hx. apply MEM1. exact Hx.
  - (* after the block (b, i) *)
    rewrite lastaddr_snoc.
    destruct (srt_split _ _ _ _ _ _ S1) as ((D1 & D2 & D3 & D4 & D5) & T1 & T2 & _ & F3 & _).
    rewrite (proj2 (Z.eqb_neq b 0)) by zl.
    rewrite (proj2 (Z.leb_le r (c - p))) by zl. cbn [bind].
    rewrite PHc. cbn [bind].
    assert (Hbi : b + i <= p) by (apply (H1p b i); apply in_or_app; right; left; reflexivity).
    pose proof (mod8 _ D2) as [M5 M6].
    rewrite (rd_ok s1 (b + 8)) by (cbn [s1 p_base p_size]; auto; zl). cbn [bind].
    apply seg_app in Sgl1. destruct Sgl1 as (z & Sgl & Sgb). cbn [seg] in Sgb.
    destruct Sgb as (-> & _ & Sb2 & Sb3). rewrite Sb2.
    destruct (i =? p - b) eqn:Ei.
    + (* merge with the block before: only right when that block has the same size *)
      apply Z.eqb_eq in Ei.
      assert (Eir : i = r).
      { destruct Gbelow as [G|[G1 G2]].
        - exfalso. apply G. apply Ibytes. apply fbyte_app. left. apply fbyte_app. right.
          apply fbyte_cons. left. zl.
        - destruct (Z.lt_trichotomy i r) as [L|[L|L]]; [|exact L|]; exfalso.
          + assert (X : fbyte ((l0 ++ [(b, i)]) ++ (c, j) :: t) (b - 1)).
            { apply Ibytes. apply G1. fold r. zl. }
            apply fbyte_app in X. destruct X as [X|X].
            * apply fbyte_app in X. destruct X as [X|X].
              -- pose proof (fbyte_range _ _ _ _ T1 X). zl.
              -- apply fbyte_cons in X. destruct X as [X|X]; [zl|]. apply fbyte_nil in X. exact X.
            * apply fbyte_cons in X. destruct X as [X|X]; [zl|].
              pose proof (fbyte_range _ _ _ _ S3 X). zl.
          + apply G2. fold r. apply Ibytes. apply fbyte_app. left. apply fbyte_app. right.
            apply fbyte_cons. left. zl. }
      rewrite (rd_ok s1 p) by (cbn [s1 p_base p_size]; auto; zl). cbn [bind].
      rewrite (wr_ok s1 b) by (cbn [s1 p_base p_size]; auto; zl). cbn [bind].
      rewrite rd_ok by (cbn [s1 p_base p_size]; auto; zl). cbn [bind p_mem].
      rewrite wr_ok by (cbn [s1 p_base p_size]; auto; zl). cbn [bind p_mem p_base p_size p_free p_avail].
      rewrite (upd_ne _ b) by zl.
      cbn [seg] in Sgp. destruct Sgp as (_ & _ & Sp1 & Sp2). rewrite Sp1.
      rewrite (u64_id (r + ksz)) by zl.
      apply (FIN (Pool (upd (upd (p_mem s1) b (p_mem s1 p)) (b + 8) (r + ksz))
                       (p_base s1) (p_size s1) (p_free s1) (p_avail s1)) (l0 ++ (b, r + ksz) :: u)); cbn [p_base p_size p_avail p_mem p_free]; try reflexivity.
      * apply seg_app. exists b. split.
        -- apply (seg_frame (p_mem s1)); [|exact Sgl]. intros b' i' Hb'.
           destruct (F3 _ _ Hb') as (G1 & G2 & G3 & G4 & G5). rewrite !upd_ne by zl. auto.
        -- cbn [seg]. split; [reflexivity|]. split; [zl|]. split; [apply upd_eq|].
           rewrite (upd_ne _ (b + 8)) by zl. rewrite upd_eq.
           apply (seg_frame (p_mem s1)); [|exact Sp2]. intros b' i' Hb'. specialize (Pu _ _ Hb').
           rewrite !upd_ne by zl. auto.
      * apply srt_app. split; [exact T1|]. cbn [srt]. split; [zl|]. split; [exact D2|].
        split; [zl|]. split; [apply mod128_add; auto|]. split; [zl|].
        replace (b + (r + ksz)) with (p + ksz) by zl. exact Psrt.
      * intros x. specialize (Pby x). rewrite !fbyte_cons in Pby.
        rewrite !fbyte_app, !fbyte_cons, fbyte_nil.
        split.
        -- intros [X|[X|X]].
           ++ left. left. left. exact X.
           ++ destruct (Z_lt_le_dec x p); [left; left; right; left; zl|].
              assert (Y : p <= x < p + ksz) by zl.
              destruct (proj1 Pby (or_introl Y)) as [V|V]; [left; right; exact V|right; exact V].
           ++ destruct (proj1 Pby (or_intror X)) as [V|V]; [left; right; exact V|right; exact V].
        -- intros [[[X|[X|X]]|X]|X]; [left; exact X|right; left; zl|destruct X| |].
           ++ destruct (proj2 Pby (or_introl X)) as [Y|Y]; [right; left; zl|right; right; exact Y].
           ++ destruct (proj2 Pby (or_intror X)) as [Y|Y]; [right; left; zl|right; right; exact Y].
      * rewrite !fsum_app. cbn [fsum]. zl.
      * intros x Ux Hx.
        assert (NX : ~ (b <= x < b + i)).
        { intros X. apply (UF x Ux). apply fbyte_app. left. apply fbyte_app. right. apply fbyte_cons. left. exact X. }
        rewrite !upd_ne by zl. apply MEM1. exact Hx.
    + (* no merge with the block before *)
      apply Z.eqb_neq in Ei.
      rewrite wr_ok by (cbn [s1 p_base p_size]; auto; zl). cbn [bind].
      apply (FIN (Pool (upd (p_mem s1) b p) (p_base s1) (p_size s1) (p_free s1) (p_avail s1))
                 ((l0 ++ [(b, i)]) ++ (p, ksz) :: u)); cbn [p_base p_size p_avail p_mem p_free]; try reflexivity.
      * apply seg_app. exists p. split.
        -- apply seg_app. exists b. split.
           ++ apply (seg_frame (p_mem s1)); [|exact Sgl]. intros b' i' Hb'.
              destruct (F3 _ _ Hb') as (G1 & G2 & G3 & G4 & G5). rewrite !upd_ne by zl. auto.
           ++ cbn [seg]. split; [reflexivity|]. split; [zl|]. rewrite upd_ne by zl.
              split; [exact Sb2|]. apply upd_eq.
        -- apply (seg_frame (p_mem s1)); [|exact Sgp]. intros b' i' [Eb|Hb'].
           ++ injection Eb as <- <-. rewrite !upd_ne by zl. auto.
           ++ specialize (Pu _ _ Hb'). rewrite !upd_ne by zl. auto.
      * apply srt_app. split; [exact S1|]. cbn [srt]. rewrite endof_app. cbn [endof].
        repeat split; auto; zl.
      * intros x. specialize (Pby x). rewrite (fbyte_app (l0 ++ [(b, i)])), (fbyte_app (l0 ++ [(b, i)])).
        tauto.
      * rewrite !fsum_app. cbn [fsum]. zl.
      * intros x Ux Hx.
        assert (NX : ~ (b <= x < b + i)).
        { intros X. apply (UF x Ux). apply fbyte_app. left. apply fbyte_app. right. apply fbyte_cons. left. exact X. }
        rewrite !upd_ne by zl. apply MEM1. exact Hx.
Qed.

(** ** Histories *)

Definition client_writes (s : pool) (live : chunks) (s' : pool) : Prop :=
  (forall x, ~ used live x -> p_mem s' x = p_mem s x) /\
  p_base s' = p_base s /\ p_size s' = p_size s /\
  p_free s' = p_free s /\ p_avail s' = p_avail s.

Lemma write_inv s live l s' : inv s live l -> client_writes s live s' -> inv s' live l.
Proof.
  intros [Iseg Isrt Ibytes Ich Iap Iav Isum IB IS IW] (W1 & W2 & W3 & W4 & W5).
  constructor; rewrite ?W2, ?W3, ?W4, ?W5; auto.
  - apply (seg_frame (p_mem s)); [|exact Iseg]. intros a k Ha.
    destruct (srt_in _ _ _ _ _ Isrt Ha) as (I1 & I2 & I3 & I4 & I5 & I6).
    pose proof (mod128_ge _ I4 I3).
    assert (F : forall y, a <= y < a + k -> p_mem s' y = p_mem s y).
    { intros y Hy. apply W1. intros U. assert (X : fbyte l y) by (exists a, k; auto).
      apply Ibytes in X. destruct X as [_ X]. auto. }
    split; apply F; lia.
  - intros x. unfold unused. rewrite W2, W3. apply Ibytes.
  - eapply Forall_impl; [|exact Ich]. intros c Hc. unfold chunk_ok in *. rewrite W2, W3. exact Hc.
Qed.

Lemma init_inv m addr pages s :
  0 < addr -> addr mod 128 = 0 -> 0 < pages -> addr + pages * 16777216 < W64 ->
  pool_init m addr pages = Some s ->
  inv s [] [(addr, p_size s)] /\ p_base s = addr /\ p_size s = pages * 16777216.
Proof.
  intros H1 H2 H3 H4 E. unfold pool_init, pool_bytes in E.
  destruct ((-2147483648 <=? pages * 16777216) && (pages * 16777216 <=? 2147483647)) eqn:EP;
    [|discriminate E]. cbn [bind] in E.
  set (sz := pages * 16777216) in *.
  assert (Hsz : 16777216 <= sz) by (unfold sz; lia).
  assert (Msz : sz mod 128 = 0).
  { unfold sz. replace (pages * 16777216) with (pages * 131072 * 128) by ring. apply Z.mod_mul. lia. }
  pose proof (mod8 _ H2) as [M1 M2].
  rewrite wr_ok in E by (cbn [p_base p_size]; auto; lia). cbn [bind p_mem p_base p_size p_free p_avail] in E.
  rewrite wr_ok in E by (cbn [p_base p_size]; auto; lia). cbn [p_mem p_base p_size p_free p_avail] in E.
  injection E as <-. cbn [p_base p_size]. split; [|auto].
  constructor; cbn [p_mem p_base p_size p_free p_avail].
  - cbn [seg]. rewrite upd_eq, upd_ne by lia. rewrite upd_eq. repeat split; auto; lia.
  - cbn [srt]. repeat split; auto; lia.
  - intros x. rewrite fbyte_cons, fbyte_nil. unfold unused. cbn [p_base p_size]. split.
    + intros [X _]. left. exact X.
    + intros [X|[]]. split; [exact X|]. intros (d & [] & _).
  - constructor.
  - constructor.
  - cbn [fsum]. lia.
  - cbn [fsum held fold_right]. lia.
  - auto.
  - split; [lia|exact Msz].
  - exact H4.
Qed.

Lemma history_inv s0 s live :
  (exists l0, inv s0 [] l0) -> history careful s0 s live ->
  (exists l, inv s live l) /\ p_base s = p_base s0 /\ p_size s = p_size s0.
Proof.
  intros H0 H. induction H as [|s live e s' live' H [[l IH] [EB EZ]] [Hl Hc] Hr]; [auto|].
  destruct e as [n|p n|y v]; cbn [run_event legal] in *.
  - destruct (alloc_inv _ _ _ _ IH Hl) as [[A _]|(s1 & a & k & l' & A & I & B & Z & _)];
      rewrite A in Hr; injection Hr as <- <-.
    + eauto.
    + split; [eauto|]. split; congruence.
  - destruct (free_inv _ _ _ _ _ IH Hl Hc) as (s1 & l' & A & I & B & Z & _).
    rewrite A in Hr. injection Hr as <- <-. split; [eauto|]. split; congruence.
  - injection Hr as <- <-. split; [exists l; apply (write_inv s); auto|auto].
    repeat split. intros x Hx. cbn [p_mem]. apply upd_ne. intros ->. apply Hx. apply Hl.
Qed.

Lemma event_defined s live l e :
  inv s live l -> careful s live e -> exists s' live', run_event s live e = Some (s', live').
Proof.
  intros I [Hl Hc]. destruct e as [n|p n|y v]; cbn [run_event legal] in *.
  - destruct (alloc_inv _ _ _ _ I Hl) as [[A _]|(s1 & a & k & l' & A & _)]; rewrite A; eauto.
  - destruct (free_inv _ _ _ _ _ I Hl Hc) as (s1 & l' & A & _). rewrite A. eauto.
  - eauto.
Qed.

(** A run of free bytes lies inside one block of the free list. *)
Lemma run_in_block lo hi l x k :
  srt lo hi l -> 0 < k -> (forall y, x <= y < x + k -> fbyte l y) ->
  exists a j, In (a, j) l /\ a <= x /\ x + k <= a + j.
Proof.
  revert lo. induction l as [|[a j] t IH]; intros lo H Hk R.
  - exfalso. apply (fbyte_nil x). apply R. lia.
  - cbn [srt] in H. destruct H as (H1 & H2 & H3 & H4 & H5 & H6).
    assert (Nend : ~ fbyte ((a, j) :: t) (a + j)).
    { intros X. apply fbyte_cons in X. destruct X as [X|X]; [lia|].
      pose proof (fbyte_range _ _ _ _ H6 X). lia. }
    destruct (Z_lt_le_dec x (a + j)) as [L|L].
    + assert (X : fbyte ((a, j) :: t) x) by (apply R; lia).
      assert (A : a <= x).
      { apply fbyte_cons in X. destruct X as [X|X]; [lia|].
        pose proof (fbyte_range _ _ _ _ H6 X). lia. }
      exists a, j. split; [left; reflexivity|]. split; [exact A|].
      destruct (Z_lt_le_dec (a + j) (x + k)) as [M|M]; [|exact M].
      exfalso. apply Nend. apply R. lia.
    + destruct (IH (a + j) H6 Hk) as (b & i & Hb & B1 & B2).
      * intros y Hy. specialize (R y Hy). apply fbyte_cons in R. destruct R as [R|R]; [lia|exact R].
      * exists b, i. split; [right; exact Hb|]. auto.
Qed.

Lemma alloc_complete s live l n :
  inv s live l -> 0 <= n <= W64 - 128 ->
  ((exists s' p, allocate s n = Some (s', Got p)) <->
   exists x, free_run s live x (128 * units n)).
Proof.
  intros I Hn. pose proof (units_pos n) as Hu. split.
  - intros (s' & p & E).
    destruct (alloc_inv _ _ _ _ I Hn) as [[A _]|(s1 & a & k & l' & A & _ & _ & _ & Ha & Hk & _)];
      rewrite A in E; [discriminate E|].
    exists a. intros y Hy. apply (inv_bytes _ _ _ I). exists a, k. split; [exact Ha|lia].
  - intros (x & R).
    destruct (alloc_inv _ _ _ _ I Hn) as [[A F]|(s1 & a & k & l' & A & _)]; [|eauto].
    exfalso. destruct (run_in_block _ _ _ x (128 * units n) (inv_srt _ _ _ I)) as (a & j & Ha & A1 & A2).
    + lia.
    + intros y Hy. apply (inv_bytes _ _ _ I). apply R. exact Hy.
    + rewrite Forall_forall in F. specialize (F _ Ha). cbn [snd] in F. lia.
Qed.

Lemma fresh_inv s : fresh s -> exists l, inv s [] l.
Proof.
  intros (m & addr & pages & H1 & H2 & H3 & H4 & E).
  destruct (init_inv m addr pages s) as [I _]; auto; [|eauto].
  Z.to_euclidean_division_equations; lia.
Qed.

Lemma history_contents s live l e s' live' c x :
  inv s live l -> careful s live e -> (forall y v, e <> Poke y v) ->
  run_event s live e = Some (s', live') ->
  In c live -> In c live' -> chunk_byte c x -> p_mem s' x = p_mem s x.
Proof.
  intros I [Hl Hc] NW Hr Hc1 Hc2 Hx. destruct e as [n|p n|y v]; cbn [run_event legal] in *.
  - destruct (alloc_inv _ _ _ _ I Hl) as [[A _]|(s1 & a & k & l' & A & _ & _ & _ & _ & _ & M)];
      rewrite A in Hr; injection Hr as <- <-; [reflexivity|].
    apply M. exists c. auto.
  - destruct (free_inv _ _ _ _ _ I Hl Hc) as (s1 & l' & A & _ & _ & _ & M).
    rewrite A in Hr. injection Hr as <- <-. apply M. exists c. auto.
  - exfalso. apply (NW y v). reflexivity.
Qed.

(** ** Exhibiting histories *)

Fixpoint legal_run (s : pool) (live : chunks) (es : list event) : bool :=
  match es with
  | [] => true
  | e :: es' =>
    (match e with
     | Alloc n => (0 <=? n) && (n <=? W64 - 128)
     | Free p n => existsb (fun c => (fst c =? p) && (snd c =? n)) live
     | Poke x v => existsb (fun c => (fst c <=? x) && (x <? fst c + 128 * units (snd c))) live
                   && (x mod 8 =? 0)
     end) &&
    match run_event s live e with
    | None => true
    | Some (s', live') => legal_run s' live' es'
    end
  end.

Lemma legal_run_history s0 es : forall s live s' live',
  history legal s0 s live -> legal_run s live es = true ->
  run_events s live es = Some (s', live') -> history legal s0 s' live'.
Proof.
  induction es as [|e es IH]; intros s live s' live' H L R; cbn [run_events legal_run] in *.
  - injection R as <- <-. exact H.
  - apply andb_prop in L. destruct L as [L1 L2].
    destruct (run_event s live e) as [[s1 live1]|] eqn:E; [|discriminate R].
    apply (IH s1 live1); auto. apply (history_step legal s0 s live e); auto.
    destruct e as [n|p n|y v]; cbn [legal].
    + apply andb_prop in L1. destruct L1 as [L1 L3]. apply Z.leb_le in L1, L3. auto.
    + apply existsb_exists in L1. destruct L1 as ([a b] & Hin & Hab). cbn [fst snd] in Hab.
      apply andb_prop in Hab. destruct Hab as [Ha Hb]. apply Z.eqb_eq in Ha, Hb. subst. exact Hin.
    + apply andb_prop in L1. destruct L1 as [L1 L3]. apply Z.eqb_eq in L3. split; [|exact L3].
      apply existsb_exists in L1. destruct L1 as ([a b] & Hin & Hab). exists (a, b). split; [exact Hin|].
      apply andb_prop in Hab. destruct Hab as [Ha Hb]. apply Z.leb_le in Ha. apply Z.ltb_lt in Hb.
      unfold chunk_byte. auto.
Qed.

Definition demo : pool :=
  Pool (upd (upd (fun _ => 7) 1048576 0) 1048584 16777216) 1048576 16777216 1048576 16777216.

Lemma demo_fresh : fresh demo.
Proof.
  exists (fun _ => 7), 1048576, 1. repeat split; lia.
Qed.

Lemma demo_run es s live :
  legal_run demo [] es = true -> run_events demo [] es = Some (s, live) ->
  history legal demo s live.
Proof. apply legal_run_history. constructor. Qed.

(** Chunks of 128, 256 and 128 bytes; the first two are returned in order. *)
Definition overlap_events : list event :=
  [Alloc 128; Alloc 256; Alloc 128; Free 1048576 128; Free 1048704 256; Alloc 512].

Lemma overlap_run :
  legal_run demo [] overlap_events = true /\
  option_map snd (run_events demo [] overlap_events)
  = Some [(1048576, 512); (1048960, 128)].
Proof. split; vm_compute; reflexivity. Qed.

(** The whole pool is taken, filled, returned; then 128 bytes are taken. *)
Definition wild_events : list event :=
  [Alloc 16777216; Poke 1048576 7; Free 1048576 16777216; Alloc 128].

Lemma wild_run :
  legal_run demo [] wild_events = true /\
  option_map (fun r => match run_event (fst r) (snd r) (Alloc 16777216) with
                       | None => true | Some _ => false end)
    (run_events demo [] wild_events) = Some true.
Proof. split; vm_compute; reflexivity. Qed.

(** Two chunks fill the pool; the lower one is returned first. *)
Definition lost_events : list event :=
  [Alloc 128; Alloc 16777088; Free 1048576 128; Free 1048704 16777088].

Lemma lost_run :
  legal_run demo [] lost_events = true /\
  option_map (fun r => (snd r, match allocate (fst r) 16777216 with
                               | Some (_, Bad_alloc) => true | _ => false end))
    (run_events demo [] lost_events) = Some ([], true).
Proof. split; vm_compute; reflexivity. Qed.

(** A careful history: three chunks, the first is returned, then the second
    (next to a free block of its own size). *)
Definition demo_events : list event :=
  [Alloc 128; Alloc 100; Alloc 300; Poke 1048832 5; Free 1048576 128; Free 1048704 100].

Definition demo_at (k : nat) : pool * chunks :=
  match run_events demo [] (firstn k demo_events) with
  | Some r => r
  | None => (demo, [])
  end.

Lemma demo_step k e s live s' live' :
  demo_at k = (s, live) -> demo_at (S k) = (s', live') ->
  run_event s live e = Some (s', live') ->
  careful s live e ->
  history careful demo (fst (demo_at k)) (snd (demo_at k)) ->
  history careful demo (fst (demo_at (S k))) (snd (demo_at (S k))).
Proof.
  intros E1 E2 R C H. rewrite E1 in H. rewrite E2. cbn [fst snd] in *.
  exact (history_step _ _ _ _ _ _ _ H C R).
Qed.

Ltac no_use :=
  let c := fresh "c" in let Hc := fresh "Hc" in let Hx := fresh "Hx" in
  intros (c & Hc & Hx); unfold chunk_byte in Hx;
  repeat (destruct Hc as [<-|Hc]; [vm_compute in Hx; destruct Hx as [Hx1 Hx2]; congruence|]);
  destruct Hc.

Lemma demo_history :
  history careful demo (fst (demo_at 6)) (snd (demo_at 6)) /\
  snd (demo_at 6) = [(1048832, 300)].
Proof.
  assert (H0 : history careful demo (fst (demo_at 0)) (snd (demo_at 0))) by constructor.
  assert (W : W64 = 18446744073709551616) by reflexivity.
  split; [|vm_compute; reflexivity].
  refine (demo_step 5 (Free 1048704 100) (fst (demo_at 5)) [(1048832, 300); (1048704, 100)]
           (fst (demo_at 6)) [(1048832, 300)] _ _ _ _ _); [vm_compute; reflexivity|vm_compute; reflexivity|vm_compute; reflexivity| |].
  { split; [right; left; reflexivity|]. split.
    - exists 2000000. split; [lia|]. split; [vm_compute; split; congruence|no_use].
    - right. split.
      + intros y Hy. assert (U100 : units 100 = 1) by reflexivity. rewrite U100 in Hy.
        split; [change (1048576 <= y < 17825792); lia|].
        intros (c & Hc & Hx). unfold chunk_byte in Hx.
        destruct Hc as [<-|[<-|[]]].
        * change (1048832 <= y < 1049216) in Hx. lia.
        * change (1048704 <= y < 1048832) in Hx. lia.
      + intros [Hx _]. vm_compute in Hx. destruct Hx as [H1 H2]. congruence. }
  refine (demo_step 4 (Free 1048576 128) (fst (demo_at 4)) [(1048832, 300); (1048704, 100); (1048576, 128)]
           (fst (demo_at 5)) [(1048832, 300); (1048704, 100)] _ _ _ _ _); [vm_compute; reflexivity|vm_compute; reflexivity|vm_compute; reflexivity| |].
  { split; [right; right; left; reflexivity|]. split.
    - exists 2000000. split; [lia|]. split; [vm_compute; split; congruence|no_use].
    - left. intros [Hx _]. vm_compute in Hx. destruct Hx as [H1 H2]. congruence. }
  refine (demo_step 3 (Poke 1048832 5) (fst (demo_at 3)) [(1048832, 300); (1048704, 100); (1048576, 128)]
           (fst (demo_at 4)) [(1048832, 300); (1048704, 100); (1048576, 128)] _ _ _ _ _); [vm_compute; reflexivity|vm_compute; reflexivity|vm_compute; reflexivity| |].
  { split; [|exact I]. split; [|reflexivity]. exists (1048832, 300). split; [left; reflexivity|].
    vm_compute. split; congruence. }
  refine (demo_step 2 (Alloc 300) (fst (demo_at 2)) [(1048704, 100); (1048576, 128)]
           (fst (demo_at 3)) [(1048832, 300); (1048704, 100); (1048576, 128)] _ _ _ _ _); [vm_compute; reflexivity|vm_compute; reflexivity|vm_compute; reflexivity| |].
  { split; [|exact I]. cbn [legal]. lia. }
  refine (demo_step 1 (Alloc 100) (fst (demo_at 1)) [(1048576, 128)]
           (fst (demo_at 2)) [(1048704, 100); (1048576, 128)] _ _ _ _ _); [vm_compute; reflexivity|vm_compute; reflexivity|vm_compute; reflexivity| |].
  { split; [|exact I]. cbn [legal]. lia. }
  refine (demo_step 0 (Alloc 128) (fst (demo_at 0)) []
           (fst (demo_at 1)) [(1048576, 128)] _ _ _ _ _); [vm_compute; reflexivity|vm_compute; reflexivity|vm_compute; reflexivity| |].
  { split; [|exact I]. cbn [legal]. lia. }
  exact H0.
Qed.
