(** Proofs about the Python views. *)
From Coq Require Import ZArith List Lia Bool Arith Sorted.
From Verif Require Import Base LoopLemmas Copy CopyProofs Pyview.
Import ListNotations.
Local Open Scope nat_scope.

(** ** Positions *)
Lemma sorted_unique {X} (R : X -> X -> Prop) (Rirr : forall x, ~ R x x) (Rtr : forall x y z, R x y -> R y z -> R x z) :
  forall l l', StronglySorted R l -> StronglySorted R l' -> (forall x, In x l <-> In x l') -> l = l'.
Proof.
  induction l as [|a l IH]; intros [|b l'] S S' H; auto.
  - destruct (proj2 (H b) (or_introl eq_refl)).
  - destruct (proj1 (H a) (or_introl eq_refl)).
  - inversion S; inversion S'; subst. rewrite Forall_forall in *.
    assert (a = b).
    { destruct (proj1 (H a) (or_introl eq_refl)) as [E|Hin]; [auto|].
      destruct (proj2 (H b) (or_introl eq_refl)) as [E|Hin']; [auto|].
      exfalso. apply (Rirr a). eapply Rtr; eauto. }
    subst b. f_equal. apply IH; auto. intros x; split; intros Hx.
    + destruct (proj1 (H x) (or_intror Hx)) as [E|]; [|assumption]. subst x. exfalso; eapply Rirr; eauto.
    + destruct (proj2 (H x) (or_intror Hx)) as [E|]; [|assumption]. subst x. exfalso; eapply Rirr; eauto.
Qed.

Lemma sorted_filter {X} (R : X -> X -> Prop) (p : X -> bool) l : StronglySorted R l -> StronglySorted R (filter p l).
Proof.
  induction 1 as [|a l S IH F]; simpl; [constructor|]. destruct (p a); [|assumption].
  constructor; [assumption|]. rewrite Forall_forall in *. intros x Hx. apply F. apply filter_In in Hx; tauto.
Qed.

Lemma sorted_map_seq {X} (R : X -> X -> Prop) (f : nat -> X) n : forall a,
  (forall i j, a <= i -> i < j -> j < a + n -> R (f i) (f j)) -> StronglySorted R (map f (seq a n)).
Proof.
  induction n as [|n IH]; intros a H; simpl; constructor.
  - apply IH. intros; apply H; lia.
  - apply Forall_forall. intros x Hx. apply in_map_iff in Hx. destruct Hx as (j & <- & Hj). apply in_seq in Hj.
    apply H; lia.
Qed.

Lemma rev_seq_map n : rev (seq 0 n) = map (fun i => n - 1 - i) (seq 0 n).
Proof.
  apply nth_error_ext. intros i. rewrite nth_error_map_seq.
  destruct (Nat.ltb_spec i n).
  - rewrite (nth_error_nth' _ 0) by (rewrite rev_length, seq_length; lia).
    rewrite rev_nth by (rewrite seq_length; lia). rewrite seq_length, seq_nth by lia. f_equal; lia.
  - apply nth_error_None. rewrite rev_length, seq_length; lia.
Qed.

(** What PySlice_GetIndicesEx returns names exactly the positions. *)
Lemma get_indices_ok s n : good_slice s ->
  exists start len, get_indices s (Z.of_nat n) = Some (start, step_of s, len) /\ (0 <= len)%Z /\
    positions s n = map (fun i => Z.to_nat (start + Z.of_nat i * step_of s)) (seq 0 (Z.to_nat len)) /\
    (forall i, (0 <= i < len)%Z -> (0 <= start + i * step_of s < Z.of_nat n)%Z) /\
    ((0 < step_of s)%Z -> (0 <= start <= Z.of_nat n)%Z).
Proof.
  intros G. unfold good_slice in G. unfold get_indices, positions. fold (step_of s). set (k := step_of s) in *.
  destruct (Z.eqb_spec k 0); [contradiction|]. cbn [negb].
  set (N := Z.of_nat n).
  destruct (Z.ltb_spec k 0) as [Hk|Hk].
  - (* negative step *)
    destruct (Z.ltb_spec 0 k); [lia|].
    set (st := match s_start s with Some _ => _ | None => _ end).
    set (sp := match s_stop s with Some _ => _ | None => _ end).
    assert (Est : bound n (-1) (N - 1) (s_start s) (N - 1) = st).
    { unfold bound, st, limit. destruct (s_start s) as [v|]; [|reflexivity]. fold N.
      destruct (Z.ltb_spec v 0); repeat (match goal with |- context [(?a <? ?b)%Z] => destruct (Z.ltb_spec a b) | |- context [(?a <=? ?b)%Z] => destruct (Z.leb_spec a b) end); lia. }
    assert (Esp : bound n (-1) (N - 1) (s_stop s) (-1) = sp).
    { unfold bound, sp, limit. destruct (s_stop s) as [v|]; [|reflexivity]. fold N.
      destruct (Z.ltb_spec v 0); repeat (match goal with |- context [(?a <? ?b)%Z] => destruct (Z.ltb_spec a b) | |- context [(?a <=? ?b)%Z] => destruct (Z.leb_spec a b) end); lia. }
    assert (Hst : (-1 <= st <= N - 1)%Z).
    { rewrite <- Est. unfold bound, limit. destruct (s_start s); lia. }
    assert (Hsp : (-1 <= sp <= N - 1)%Z).
    { rewrite <- Esp. unfold bound, limit. destruct (s_stop s); lia. }
    rewrite Est, Esp. clearbody st sp. clear Est Esp.
    set (len := if (st <=? sp)%Z then 0%Z else ((sp - st + 1) ÷ k + 1)%Z).
    assert (Hlen : (0 <= len)%Z /\ forall i, (0 <= i)%Z -> ((i < len)%Z <-> (sp < st + i * k)%Z)).
    { unfold len. destruct (Z.leb_spec st sp).
      - split; [lia|]. intros i Hi. split; [lia|]. intros. nia.
      - assert (E : ((sp - st + 1) ÷ k = (st - sp - 1) / (- k))%Z).
        { replace (sp - st + 1)%Z with (- (st - sp - 1))%Z by lia. replace k with (- (- k))%Z at 1 by lia.
          rewrite Z.quot_opp_opp by lia. apply Z.quot_div_nonneg; lia. }
        rewrite E. split; [pose proof (Z.div_pos (st - sp - 1) (- k)); lia|].
        intros i Hi. split; intros Hi'.
        + pose proof (Z.mul_div_le (st - sp - 1) (- k) ltac:(lia)). nia.
        + pose proof (Z.mul_succ_div_gt (st - sp - 1) (- k) ltac:(lia)). nia. }
    clearbody len. destruct Hlen as [L0 L].
    exists st, len. split; [reflexivity|]. split; [assumption|]. split; [|split].
    + apply (sorted_unique (fun a b => b < a)); [intros; lia|intros; lia| | |].
      * apply sorted_filter. rewrite rev_seq_map. apply sorted_map_seq. intros; lia.
      * apply sorted_map_seq. intros i j _ Hij Hj. assert (sp < st + Z.of_nat j * k)%Z by (apply L; lia). nia.
      * intros x. rewrite filter_In, <- in_rev, in_seq, in_map_iff.
        rewrite !andb_true_iff, Z.ltb_lt, Z.leb_le, Z.eqb_eq. split.
        -- intros [Hx [[H1 H2] H3]]. exists (Z.to_nat ((st - Z.of_nat x) / (- k))).
           apply Z.mod_divide in H3; [|lia]. destruct H3 as [q Hq].
           rewrite Hq, Z.div_mul by lia. assert (0 <= q)%Z by nia.
           rewrite in_seq. split; [rewrite Z2Nat.id by lia; replace (st + q * k)%Z with (Z.of_nat x) by lia; lia|].
           assert (q < len)%Z by (apply L; lia). lia.
        -- intros (i & <- & Hi). apply in_seq in Hi. assert (H1 : (sp < st + Z.of_nat i * k)%Z) by (apply L; lia).
           rewrite Z2Nat.id by lia. split; [nia|]. split; [nia|].
           replace (st - (st + Z.of_nat i * k))%Z with (Z.of_nat i * (- k))%Z by lia. apply Z.mod_mul; lia.
    + intros i Hi. assert (sp < st + i * k)%Z by (apply L; lia). nia.
    + intros; lia.
  - (* positive step *)
    destruct (Z.ltb_spec 0 k); [|lia].
    set (st := match s_start s with Some _ => _ | None => _ end).
    set (sp := match s_stop s with Some _ => _ | None => _ end).
    assert (Est : bound n 0 N (s_start s) 0 = st).
    { unfold bound, st, limit. destruct (s_start s) as [v|]; [|reflexivity]. fold N.
      destruct (Z.ltb_spec v 0); repeat (match goal with |- context [(?a <? ?b)%Z] => destruct (Z.ltb_spec a b) | |- context [(?a <=? ?b)%Z] => destruct (Z.leb_spec a b) end); lia. }
    assert (Esp : bound n 0 N (s_stop s) N = sp).
    { unfold bound, sp, limit. destruct (s_stop s) as [v|]; [|reflexivity]. fold N.
      destruct (Z.ltb_spec v 0); repeat (match goal with |- context [(?a <? ?b)%Z] => destruct (Z.ltb_spec a b) | |- context [(?a <=? ?b)%Z] => destruct (Z.leb_spec a b) end); lia. }
    assert (Hst : (0 <= st <= N)%Z).
    { rewrite <- Est. unfold bound, limit. destruct (s_start s); lia. }
    assert (Hsp : (0 <= sp <= N)%Z).
    { rewrite <- Esp. unfold bound, limit. destruct (s_stop s); lia. }
    rewrite Est, Esp. clearbody st sp. clear Est Esp.
    set (len := if (sp <=? st)%Z then 0%Z else ((sp - st - 1) ÷ k + 1)%Z).
    assert (Hlen : (0 <= len)%Z /\ forall i, (0 <= i)%Z -> ((i < len)%Z <-> (st + i * k < sp)%Z)).
    { unfold len. destruct (Z.leb_spec sp st).
      - split; [lia|]. intros i Hi. split; [lia|]. intros. nia.
      - assert (E : ((sp - st - 1) ÷ k = (sp - st - 1) / k)%Z) by (apply Z.quot_div_nonneg; lia).
        rewrite E. split; [pose proof (Z.div_pos (sp - st - 1) k); lia|].
        intros i Hi. split; intros Hi'.
        + pose proof (Z.mul_div_le (sp - st - 1) k ltac:(lia)). nia.
        + pose proof (Z.mul_succ_div_gt (sp - st - 1) k ltac:(lia)). nia. }
    clearbody len. destruct Hlen as [L0 L].
    exists st, len. split; [reflexivity|]. split; [assumption|]. split; [|split].
    + apply (sorted_unique lt); [intros; lia|intros; lia| | |].
      * apply sorted_filter. rewrite <- (map_id (seq 0 n)). apply sorted_map_seq. intros; lia.
      * apply sorted_map_seq. intros i j _ Hij Hj. nia.
      * intros x. rewrite filter_In, in_seq, in_map_iff.
        rewrite !andb_true_iff, Z.ltb_lt, Z.leb_le, Z.eqb_eq. split.
        -- intros [Hx [[H1 H2] H3]]. exists (Z.to_nat ((Z.of_nat x - st) / k)).
           apply Z.mod_divide in H3; [|lia]. destruct H3 as [q Hq].
           rewrite Hq, Z.div_mul by lia. assert (0 <= q)%Z by nia.
           rewrite in_seq. split; [rewrite Z2Nat.id by lia; replace (st + q * k)%Z with (Z.of_nat x) by lia; lia|].
           assert (q < len)%Z by (apply L; lia). lia.
        -- intros (i & <- & Hi). apply in_seq in Hi. assert (H1 : (st + Z.of_nat i * k < sp)%Z) by (apply L; lia).
           rewrite Z2Nat.id by nia. split; [nia|]. split; [nia|].
           replace (st + Z.of_nat i * k - st)%Z with (Z.of_nat i * k)%Z by lia. apply Z.mod_mul; lia.
    + intros i Hi. assert (st + i * k < sp)%Z by (apply L; lia). nia.
    + intros; lia.
Qed.

(** ** Machine words *)
Lemma W_pos : (0 < W64)%Z. Proof. reflexivity. Qed.
Lemma W_H : (W64 = 2 * H64)%Z. Proof. reflexivity. Qed.
Lemma H_pos : (0 < H64)%Z. Proof. reflexivity. Qed.
Lemma H_big : (4294967296 < H64)%Z. Proof. reflexivity. Qed.
Global Opaque W64 H64.

Lemma u64_cong x y : u64 x = u64 y <-> exists k, (x = y + k * W64)%Z.
Proof.
  unfold u64. pose proof W_pos. split.
  - intros E. exists (x / W64 - y / W64)%Z.
    pose proof (Z.div_mod x W64 ltac:(lia)). pose proof (Z.div_mod y W64 ltac:(lia)). nia.
  - intros (k & ->). rewrite Z.mod_add by lia. reflexivity.
Qed.
Lemma u64_u64 x : u64 (u64 x) = u64 x.
Proof. unfold u64. apply Z.mod_mod. pose proof W_pos; lia. Qed.
Lemma u64_s64 x : u64 (s64 x) = u64 x.
Proof.
  unfold s64. cbv zeta. fold (u64 x). destruct (u64 x <? H64)%Z; [apply u64_u64|].
  transitivity (u64 (u64 x)); [|apply u64_u64]. apply u64_cong. exists (-1)%Z. lia.
Qed.
Lemma u64_add x x' y y' : u64 x = u64 x' -> u64 y = u64 y' -> u64 (x + y) = u64 (x' + y').
Proof. rewrite !u64_cong. intros (k & ->) (l & ->). exists (k + l)%Z. lia. Qed.
Lemma u64_mul x x' y y' : u64 x = u64 x' -> u64 y = u64 y' -> u64 (x * y) = u64 (x' * y').
Proof. rewrite !u64_cong. intros (k & ->) (l & ->). exists (k * y' + l * x' + k * l * W64)%Z. lia. Qed.
Lemma u64_range x : (0 <= u64 x < W64)%Z.
Proof. unfold u64. apply Z.mod_pos_bound. apply W_pos. Qed.
Lemma u64_id x : (0 <= x < W64)%Z -> u64 x = x.
Proof. intros. unfold u64. apply Z.mod_small; lia. Qed.
Lemma s64_range x : (- H64 <= s64 x < H64)%Z.
Proof.
  unfold s64. cbv zeta. fold (u64 x). pose proof (u64_range x). pose proof W_H.
  destruct (Z.ltb_spec (u64 x) H64); lia.
Qed.
Lemma s64_eq x y : u64 x = u64 y -> (- H64 <= y < H64)%Z -> s64 x = y.
Proof.
  intros E Hy. assert (E2 : u64 (s64 x) = u64 y) by (rewrite u64_s64; exact E).
  apply u64_cong in E2. destruct E2 as [k Hk]. pose proof (s64_range x). pose proof W_H. pose proof H_pos.
  assert (k = 0)%Z by nia. lia.
Qed.
Lemma signed_eq x y : u64 x = u64 y -> (- H64 <= x < H64)%Z -> (- H64 <= y < H64)%Z -> x = y.
Proof.
  intros E Hx Hy. apply u64_cong in E. destruct E as [k Hk]. pose proof W_H. pose proof H_pos.
  assert (k = 0)%Z by nia. lia.
Qed.

Lemma mk_dom_ok i s len q : (0 <= len)%Z -> ((0 < len)%Z -> u64 (i + s * (len - 1)) = u64 q /\ (0 <= q < H64)%Z) ->
  mk_dom i s len = Some {| d_first := i; d_stride := s; d_len := len |}.
Proof.
  intros L H. unfold mk_dom. destruct (Z.eqb_spec len 0); cbn [orb]; [reflexivity|].
  destruct H as [E Hq]; [lia|]. rewrite (s64_eq _ q E) by (pose proof H_pos; lia).
  destruct (Z.leb_spec 0 q); [reflexivity|lia].
Qed.

(** ** Vectors *)
(** A view of the elements [a], [a+d], ... of a storage of [L] elements. *)
Definition vinv (b : pb1) (a d L : Z) : Prop :=
  u64 (o1 b) = u64 a /\ (0 <= o1 b < W64)%Z /\ u64 (st1 b) = u64 d /\ (- H64 <= st1 b < H64)%Z /\ d <> 0%Z /\
  forall i, (0 <= i < Z.of_nat (sz1 b))%Z -> (0 <= a + i * d < L)%Z.
Definition pos (a d : Z) (n : nat) : list nat := map (fun i => Z.to_nat (a + Z.of_nat i * d)) (seq 0 n).

Lemma pos_length a d n : length (pos a d n) = n.
Proof. unfold pos. rewrite map_length, seq_length. reflexivity. Qed.
Lemma pos_nth a d n i : nth_error (pos a d n) i = if i <? n then Some (Z.to_nat (a + Z.of_nat i * d)) else None.
Proof. unfold pos. rewrite nth_error_map_seq. reflexivity. Qed.

Lemma items_pos a d n s st k len :
  positions s n = map (fun i => Z.to_nat (st + Z.of_nat i * k)) (seq 0 (Z.to_nat len)) ->
  (forall i, (0 <= i < len)%Z -> (0 <= st + i * k < Z.of_nat n)%Z) ->
  items 0 (pos a d n) s = pos (a + st * d) (k * d) (Z.to_nat len).
Proof.
  intros E H. unfold items. rewrite pos_length, E, map_map. apply map_ext_in. intros i Hi. apply in_seq in Hi.
  assert (B := H (Z.of_nat i) ltac:(lia)).
  apply nth_error_nth. rewrite pos_nth. destruct (Nat.ltb_spec (Z.to_nat (st + Z.of_nat i * k)) n); [|lia].
  rewrite Z2Nat.id by lia. do 2 f_equal. lia.
Qed.

Lemma subblock1_ok b a d L s : vinv b a d L -> (L <= H64)%Z -> good_slice s ->
  exists b' a' d', subblock1 b s = Some b' /\ vinv b' a' d' L /\ part1 b' = part1 b /\ base1 b' = base1 b /\
    pos a' d' (sz1 b') = items 0 (pos a d (sz1 b)) s.
Proof.
  intros (Ho & Hor & Hs & Hsr & Hd & Hin) HL G.
  destruct (get_indices_ok s (sz1 b) G) as (st & len & EG & L0 & EP & Hpos & _).
  assert (EV : forall i, (0 <= i < len)%Z -> (0 <= a + (st + i * step_of s) * d < L)%Z)
    by (intros i Hi; apply Hin, Hpos; exact Hi).
  unfold subblock1, slice_to_domain. rewrite EG. cbn [bind].
  rewrite (mk_dom_ok _ _ _ (a + (st + (len - 1) * step_of s) * d)%Z); [|assumption|].
  - cbn [bind]. eexists _, (a + st * d)%Z, (step_of s * d)%Z. split; [reflexivity|].
    unfold sub1; cbn [o1 st1 sz1 part1 base1 d_first d_stride d_len].
    split; [|split; [reflexivity|split; [reflexivity|]]].
    + split; [|split; [|split; [|split; [|split]]]]; cbn [o1 st1 sz1].
      * rewrite !u64_u64. apply u64_add; [assumption|]. apply u64_mul; [reflexivity|assumption].
      * apply u64_range.
      * rewrite u64_s64. apply u64_mul; [reflexivity|assumption].
      * apply s64_range.
      * unfold good_slice in G. nia.
      * intros i Hi. specialize (EV i ltac:(lia)). lia.
    + symmetry. apply items_pos; assumption.
  - intros Hl. specialize (EV (len - 1)%Z ltac:(lia)). split; [|lia].
    transitivity (u64 ((a + st * d) + (step_of s * d) * (len - 1))); [|f_equal; lia].
    apply u64_add.
    + rewrite u64_u64. apply u64_add; [assumption|]. apply u64_mul; [reflexivity|assumption].
    + apply u64_mul; [|reflexivity]. rewrite u64_s64. apply u64_mul; [reflexivity|assumption].
Qed.

Lemma subviews1_ok path : forall b a d L, vinv b a d L -> (L <= H64)%Z -> Forall good_slice path ->
  exists b' a' d', subviews1 b path = Some b' /\ vinv b' a' d' L /\ part1 b' = part1 b /\ base1 b' = base1 b /\
    pos a' d' (sz1 b') = nested (pos a d (sz1 b)) path.
Proof.
  induction path as [|s path IH]; intros b a d L HV HL HG; cbn [subviews1].
  - exists b, a, d. split; [reflexivity|]. split; [assumption|]. split; [reflexivity|]. split; reflexivity.
  - inversion HG; subst.
    destruct (subblock1_ok b a d L s HV HL ltac:(assumption)) as (b1 & a1 & d1 & E1 & V1 & P1 & B1 & Q1).
    rewrite E1; cbn [bind].
    destruct (IH b1 a1 d1 L V1 HL ltac:(assumption)) as (b' & a' & d' & E & V' & P' & B' & Q').
    exists b', a', d'. split; [assumption|]. split; [assumption|]. split; [congruence|]. split; [congruence|].
    rewrite Q', Q1. reflexivity.
Qed.

Lemma index1_ok b a d L i : vinv b a d L -> (L <= H64)%Z -> (0 <= i < Z.of_nat (sz1 b))%Z ->
  index1 b i = Some (cell (part1 b) (base1 b) (a + i * d)).
Proof.
  intros (Ho & Hor & Hs & Hsr & Hd & Hin) HL Hi. unfold index1.
  destruct (Z.leb_spec 0 i); [|lia]. destruct (Z.ltb_spec i (Z.of_nat (sz1 b))); [|lia]. cbn [andb].
  specialize (Hin i Hi). pose proof W_H. pose proof H_pos. do 2 f_equal.
  rewrite <- (u64_id (a + i * d)) by lia. apply u64_add; [assumption|]. rewrite u64_u64.
  apply u64_mul; [reflexivity|assumption].
Qed.
Lemma index1_out b i : ~ (0 <= i < Z.of_nat (sz1 b))%Z -> index1 b i = None.
Proof.
  intros Hi. unfold index1. destruct (Z.leb_spec 0 i), (Z.ltb_spec i (Z.of_nat (sz1 b))); try reflexivity. lia.
Qed.

(** The data pointer and the strides, as integers. *)
Lemma data1_at b a d L i : vinv b a d L -> (L <= H64)%Z -> (0 <= i < Z.of_nat (sz1 b))%Z ->
  (o1 b + i * st1 b = a + i * d)%Z.
Proof.
  intros (Ho & Hor & Hs & Hsr & Hd & Hin) HL Hi. pose proof W_H. pose proof H_pos.
  assert (Hz0 := Hin 0%Z ltac:(lia)).
  assert (Eo : o1 b = a) by (rewrite <- (u64_id (o1 b)), Ho by lia; apply u64_id; lia).
  destruct (Z.eq_dec i 0) as [->|]; [lia|].
  assert (Hz1 := Hin 1%Z ltac:(lia)).
  assert (Es : st1 b = d) by (apply signed_eq; [assumption|assumption|lia]). nia.
Qed.

Lemma new1_inv base n : (Z.of_nat n <= H64)%Z -> vinv (new1 base n) 0 1 (Z.of_nat n).
Proof.
  intros Hn. pose proof W_H. pose proof H_pos. unfold vinv, new1; cbn.
  split; [reflexivity|]. split; [lia|]. split; [reflexivity|].
  pose proof H_big. split; [lia|]. split; [lia|]. intros; lia.
Qed.

Lemma pos_seq n : pos 0 1 n = seq 0 n.
Proof.
  unfold pos. rewrite <- (map_id (seq 0 n)) at 2. apply map_ext. intros; lia.
Qed.
Lemma nested_app l p q : nested l (p ++ q) = nested (nested l p) q.
Proof. apply fold_left_app. Qed.

(** ** Matrices *)
(** A view of the elements (a0+i*d0, a1+j*d1) of an M x N storage. *)
Definition minv (b : pb2) (a0 d0 a1 d1 M N : Z) : Prop :=
  u64 (o2 b) = u64 (a0 * N + a1) /\ (0 <= o2 b < W64)%Z /\
  u64 (st2_0 b) = u64 (d0 * N) /\ (- H64 <= st2_0 b < H64)%Z /\
  u64 (st2_1 b) = u64 d1 /\ (- H64 <= st2_1 b < H64)%Z /\ d0 <> 0%Z /\ d1 <> 0%Z /\
  (forall i, (0 <= i < Z.of_nat (sz2_0 b))%Z -> (0 <= a0 + i * d0 < M)%Z) /\
  (forall j, (0 <= j < Z.of_nat (sz2_1 b))%Z -> (0 <= a1 + j * d1 < N)%Z).

Lemma subblock2_ok b a0 d0 a1 d1 M N s t : minv b a0 d0 a1 d1 M N ->
  (M * N < H64)%Z -> (N < H64)%Z -> good_slice s -> good_slice t ->
  (0 < d1)%Z -> sz2_1 b <> 0 ->
  exists b' a0' d0' a1' d1', subblock2 b s t = Some b' /\ minv b' a0' d0' a1' d1' M N /\
    part2 b' = part2 b /\ base2 b' = base2 b /\
    pos a0' d0' (sz2_0 b') = items 0 (pos a0 d0 (sz2_0 b)) s /\
    pos a1' d1' (sz2_1 b') = items 0 (pos a1 d1 (sz2_1 b)) t /\
    ((0 < step_of t)%Z -> (0 < d1')%Z).
Proof.
  intros (Ho & Hor & Hs0 & Hs0r & Hs1 & Hs1r & Hd0 & Hd1 & Hi & Hj) HMN HN Gs Gt Hd Hne.
  destruct (get_indices_ok s (sz2_0 b) Gs) as (st & len & EG & L0 & EP & Hpos & _).
  destruct (get_indices_ok t (sz2_1 b) Gt) as (tt & ten & TG & T0 & TP & Tpos & _).
  assert (EV : forall i, (0 <= i < len)%Z -> (0 <= a0 + (st + i * step_of s) * d0 < M)%Z)
    by (intros i Hii; apply Hi, Hpos; exact Hii).
  assert (TV : forall i, (0 <= i < ten)%Z -> (0 <= a1 + (tt + i * step_of t) * d1 < N)%Z)
    by (intros i Hii; apply Hj, Tpos; exact Hii).
  assert (A1 := Hj 0%Z ltac:(lia)).
  unfold subblock2, slice_to_domain. rewrite EG, TG. cbn [bind].
  rewrite (mk_dom_ok _ _ _ ((a0 + (st + (len - 1) * step_of s) * d0) * N + a1)%Z); [|assumption|].
  - cbn [bind]. rewrite (mk_dom_ok _ _ _ ((tt + (ten - 1) * step_of t) * d1)%Z); [|assumption|].
    + cbn [bind]. eexists _, (a0 + st * d0)%Z, (step_of s * d0)%Z, (a1 + tt * d1)%Z, (step_of t * d1)%Z.
      split; [reflexivity|].
      unfold sub2; cbn [o2 st2_0 st2_1 sz2_0 sz2_1 part2 base2 d_first d_stride d_len].
      split; [|split; [reflexivity|split; [reflexivity|split; [|split]]]].
      * unfold minv; cbn [o2 st2_0 st2_1 sz2_0 sz2_1].
        split; [|split; [apply u64_range|split; [|split; [apply s64_range|split; [|split; [apply s64_range|]]]]]].
        -- rewrite u64_u64. transitivity (u64 (((a0 * N + a1) + st * (d0 * N)) + (0 + tt * d1))); [|f_equal; lia].
           apply u64_add; rewrite u64_u64; apply u64_add; try assumption; try reflexivity;
             apply u64_mul; try assumption; reflexivity.
        -- rewrite u64_s64. transitivity (u64 (step_of s * (d0 * N))); [|f_equal; lia].
           apply u64_mul; [reflexivity|assumption].
        -- rewrite u64_s64. apply u64_mul; [reflexivity|assumption].
        -- unfold good_slice in *. split; [nia|]. split; [nia|]. split.
           ++ intros i Hii. specialize (EV i ltac:(lia)). lia.
           ++ intros i Hii. specialize (TV i ltac:(lia)). lia.
      * symmetry. apply items_pos; assumption.
      * symmetry. apply items_pos; assumption.
      * intros; nia.
    + intros Hl. specialize (TV (ten - 1)%Z ltac:(lia)). specialize (Tpos (ten - 1)%Z ltac:(lia)). split; [|nia].
      transitivity (u64 ((0 + tt * d1) + (step_of t * d1) * (ten - 1))); [|f_equal; lia].
      apply u64_add.
      * rewrite u64_u64. apply u64_add; [reflexivity|]. apply u64_mul; [reflexivity|assumption].
      * apply u64_mul; [|reflexivity]. rewrite u64_s64. apply u64_mul; [reflexivity|assumption].
  - intros Hl. specialize (EV (len - 1)%Z ltac:(lia)). split; [|nia].
    transitivity (u64 (((a0 * N + a1) + st * (d0 * N)) + (step_of s * (d0 * N)) * (len - 1))); [|f_equal; lia].
    apply u64_add.
    + rewrite u64_u64. apply u64_add; [assumption|]. apply u64_mul; [reflexivity|assumption].
    + apply u64_mul; [|reflexivity]. rewrite u64_s64. apply u64_mul; [reflexivity|assumption].
Qed.

Lemma nested_nil path : nested [] path = [].
Proof.
  induction path as [|s p IH]; cbn; [reflexivity|]. unfold items at 2; cbn [length].
  unfold positions. destruct (0 <? _)%Z; cbn; exact IH.
Qed.

Lemma subviews2_ok path : forall b a0 d0 a1 d1 M N, minv b a0 d0 a1 d1 M N ->
  (M * N < H64)%Z -> (N < H64)%Z ->
  Forall (fun st => good_slice (fst st) /\ (0 < step_of (snd st))%Z) path ->
  (0 < d1)%Z -> nested (pos a1 d1 (sz2_1 b)) (map snd path) <> [] ->
  exists b' a0' d0' a1' d1', subviews2 b path = Some b' /\ minv b' a0' d0' a1' d1' M N /\
    part2 b' = part2 b /\ base2 b' = base2 b /\
    pos a0' d0' (sz2_0 b') = nested (pos a0 d0 (sz2_0 b)) (map fst path) /\
    pos a1' d1' (sz2_1 b') = nested (pos a1 d1 (sz2_1 b)) (map snd path) /\ (0 < d1')%Z /\ sz2_1 b' <> 0.
Proof.
  induction path as [|[s t] path IH]; intros b a0 d0 a1 d1 M N HI HMN HN HG Hd Hne; cbn [subviews2 map] in *.
  - exists b, a0, d0, a1, d1. split; [reflexivity|]. split; [assumption|]. split; [reflexivity|].
    split; [reflexivity|]. split; [reflexivity|]. split; [reflexivity|]. split; [assumption|].
    intros E. rewrite E in Hne. apply Hne. reflexivity.
  - inversion HG as [|? ? [G1 G2] G3]; subst. cbn [fst snd] in *.
    assert (Hsz : sz2_1 b <> 0) by (intros E; rewrite E in Hne; cbn [pos seq map] in Hne; rewrite nested_nil in Hne; auto).
    destruct (subblock2_ok b a0 d0 a1 d1 M N s t HI HMN HN G1) as (b1 & x0 & y0 & x1 & y1 & E1 & I1 & P1 & B1 & Q1 & R1 & D1);
      [unfold good_slice; lia|assumption|assumption|].
    rewrite E1; cbn [bind].
    destruct (IH b1 x0 y0 x1 y1 M N I1 HMN HN G3) as (b' & z0 & w0 & z1 & w1 & E & I' & P' & B' & Q' & R' & D' & S');
      [auto|rewrite R1; exact Hne|].
    exists b', z0, w0, z1, w1. split; [assumption|]. split; [assumption|]. split; [congruence|]. split; [congruence|].
    rewrite Q', R', Q1, R1. split; [reflexivity|]. split; [reflexivity|]. split; assumption.
Qed.

Lemma index2_ok b a0 d0 a1 d1 M N i j : minv b a0 d0 a1 d1 M N -> (M * N < H64)%Z ->
  (0 <= i < Z.of_nat (sz2_0 b))%Z -> (0 <= j < Z.of_nat (sz2_1 b))%Z ->
  index2 b i j = Some (cell (part2 b) (base2 b) ((a0 + i * d0) * N + (a1 + j * d1))).
Proof.
  intros (Ho & Hor & Hs0 & Hs0r & Hs1 & Hs1r & Hd0 & Hd1 & Hi & Hj) HMN Ii Ij.
  unfold index2. destruct (Z.leb_spec 0 i); [|lia]. destruct (Z.ltb_spec i (Z.of_nat (sz2_0 b))); [|lia].
  destruct (Z.leb_spec 0 j); [|lia]. destruct (Z.ltb_spec j (Z.of_nat (sz2_1 b))); [|lia]. cbn [andb].
  specialize (Hi i Ii). specialize (Hj j Ij). pose proof W_H. pose proof H_pos. do 2 f_equal.
  rewrite <- (u64_id ((a0 + i * d0) * N + (a1 + j * d1))) by nia.
  transitivity (u64 ((a0 * N + a1) + (i * (d0 * N) + j * d1))); [|f_equal; lia].
  apply u64_add; [assumption|]. rewrite u64_u64. apply u64_add; apply u64_mul; try assumption; reflexivity.
Qed.
Lemma index2_out b i j : ~ ((0 <= i < Z.of_nat (sz2_0 b)) /\ (0 <= j < Z.of_nat (sz2_1 b)))%Z -> index2 b i j = None.
Proof.
  intros H. unfold index2. destruct (Z.leb_spec 0 i), (Z.ltb_spec i (Z.of_nat (sz2_0 b))),
    (Z.leb_spec 0 j), (Z.ltb_spec j (Z.of_nat (sz2_1 b))); cbn [andb]; try reflexivity. lia.
Qed.

Lemma data2_at b a0 d0 a1 d1 M N i j : minv b a0 d0 a1 d1 M N -> (M * N < H64)%Z ->
  (0 <= i < Z.of_nat (sz2_0 b))%Z -> (0 <= j < Z.of_nat (sz2_1 b))%Z ->
  (o2 b + i * st2_0 b + j * st2_1 b = (a0 + i * d0) * N + (a1 + j * d1))%Z.
Proof.
  intros (Ho & Hor & Hs0 & Hs0r & Hs1 & Hs1r & Hd0 & Hd1 & Hi & Hj) HMN Ii Ij. pose proof W_H. pose proof H_pos.
  assert (I0 := Hi 0%Z ltac:(lia)). assert (J0 := Hj 0%Z ltac:(lia)).
  assert (Eo : o2 b = (a0 * N + a1)%Z) by (rewrite <- (u64_id (o2 b)), Ho by lia; apply u64_id; nia).
  assert (E0 : (i * st2_0 b = i * (d0 * N))%Z).
  { destruct (Z.eq_dec i 0) as [->|]; [lia|]. assert (I1 := Hi 1%Z ltac:(lia)).
    f_equal. apply signed_eq; [assumption|assumption|].
    assert (- M < d0 < M)%Z by lia. nia. }
  assert (E1 : (j * st2_1 b = j * d1)%Z).
  { destruct (Z.eq_dec j 0) as [->|]; [lia|]. assert (J1 := Hj 1%Z ltac:(lia)).
    f_equal. apply signed_eq; [assumption|assumption|]. nia. }
  nia.
Qed.

Lemma new2_inv base r c : (Z.of_nat c < H64)%Z -> minv (new2 base r c) 0 1 0 1 (Z.of_nat r) (Z.of_nat c).
Proof.
  intros Hc. pose proof W_H. pose proof H_pos. pose proof H_big. unfold minv, new2; cbn [o2 st2_0 st2_1 sz2_0 sz2_1].
  split; [reflexivity|]. split; [lia|]. split; [f_equal; lia|]. split; [lia|]. split; [reflexivity|].
  split; [lia|]. split; [lia|]. split; [lia|]. split; intros; lia.
Qed.

(** Rows, columns and the diagonal of a whole matrix. *)
Lemma row_inv base r c i : (Z.of_nat r * Z.of_nat c < H64)%Z -> (Z.of_nat r < 2147483648)%Z -> (Z.of_nat c < H64)%Z ->
  (- Z.of_nat r <= i < Z.of_nat r)%Z ->
  exists b, get_row (new2 base r c) i = Some b /\ part1 b = None /\ base1 b = base /\ sz1 b = c /\
    vinv b ((if (i <? 0)%Z then i + Z.of_nat r else i) * Z.of_nat c) 1 (Z.of_nat r * Z.of_nat c).
Proof.
  intros HMN Hr Hc Hi. pose proof W_H. pose proof H_pos. pose proof H_big. unfold get_row, in_int. cbn [sz2_0 sz2_1 st2_0 new2].
  destruct (Z.leb_spec (-2147483648) i); [|lia]. destruct (Z.ltb_spec i 2147483648); [|lia]. cbn [andb].
  set (k := if (i <? 0)%Z then _ else _). assert (Hk : (0 <= k < Z.of_nat r)%Z) by (unfold k; destruct (Z.ltb_spec i 0); lia).
  clearbody k. rewrite (mk_dom_ok _ _ _ (k * Z.of_nat c + (Z.of_nat c - 1))%Z); [|lia|].
  - cbn [bind]. eexists. split; [reflexivity|]. unfold sub1; cbn [o1 st1 sz1 part1 base1 part2 base2 d_first d_stride d_len]. split; [reflexivity|]. split; [reflexivity|].
    split; [lia|]. unfold vinv; cbn [o1 st1 sz1 part1 base1 d_first d_stride d_len]. rewrite !u64_u64. split; [reflexivity|]. split; [apply u64_range|].
    split; [reflexivity|]. split; [lia|]. split; [lia|]. intros; nia.
  - intros Hl. split; [|nia]. apply u64_add; [apply u64_u64|f_equal; lia].
Qed.
Lemma col_inv base r c j : (Z.of_nat r * Z.of_nat c < H64)%Z -> (Z.of_nat c < 2147483648)%Z ->
  (- Z.of_nat c <= j < Z.of_nat c)%Z ->
  exists b, get_col (new2 base r c) j = Some b /\ part1 b = None /\ base1 b = base /\ sz1 b = r /\
    vinv b (if (j <? 0)%Z then j + Z.of_nat c else j) (Z.of_nat c) (Z.of_nat r * Z.of_nat c).
Proof.
  intros HMN Hc Hi. pose proof W_H. pose proof H_pos. pose proof H_big. unfold get_col, in_int. cbn [sz2_0 sz2_1 st2_0 st2_1 new2].
  destruct (Z.leb_spec (-2147483648) j); [|lia]. destruct (Z.ltb_spec j 2147483648); [|lia]. cbn [andb].
  set (k := if (j <? 0)%Z then _ else _). assert (Hk : (0 <= k < Z.of_nat c)%Z) by (unfold k; destruct (Z.ltb_spec j 0); lia).
  clearbody k. rewrite (mk_dom_ok _ _ _ (k + Z.of_nat c * (Z.of_nat r - 1))%Z); [|lia|].
  - cbn [bind]. eexists. split; [reflexivity|]. unfold sub1; cbn [o1 st1 sz1 part1 base1 part2 base2 d_first d_stride d_len]. split; [reflexivity|]. split; [reflexivity|].
    split; [lia|]. unfold vinv; cbn [o1 st1 sz1 part1 base1 d_first d_stride d_len]. rewrite !u64_u64. split; [f_equal; lia|]. split; [apply u64_range|].
    split; [reflexivity|]. split; [lia|]. split; [lia|]. intros i Hii.
    rewrite Z2Nat.id in Hii by lia. nia.
  - intros Hl. split; [|nia]. apply u64_add; [rewrite u64_u64; f_equal; lia|reflexivity].
Qed.
Lemma diag_inv base r c : (Z.of_nat r * Z.of_nat c < H64)%Z -> (Z.of_nat c < H64 - 1)%Z ->
  exists b, get_diag (new2 base r c) = Some b /\ part1 b = None /\ base1 b = base /\ sz1 b = Nat.min r c /\
    vinv b 0 (Z.of_nat c + 1) (Z.of_nat r * Z.of_nat c).
Proof.
  intros HMN Hc. pose proof W_H. pose proof H_pos. pose proof H_big. unfold get_diag. cbn [sz2_0 sz2_1 st2_0 st2_1 new2].
  rewrite (s64_eq _ (Z.of_nat c + 1)) by (reflexivity || lia).
  rewrite (mk_dom_ok _ _ _ ((Z.of_nat c + 1) * (Z.min (Z.of_nat r) (Z.of_nat c) - 1))%Z); [|lia|].
  - cbn [bind]. eexists. split; [reflexivity|]. unfold sub1; cbn [o1 st1 sz1 part1 base1 part2 base2 d_first d_stride d_len]. split; [reflexivity|]. split; [reflexivity|].
    split; [lia|]. unfold vinv; cbn [o1 st1 sz1 part1 base1 d_first d_stride d_len]. rewrite !u64_u64. split; [reflexivity|]. split; [apply u64_range|].
    split; [reflexivity|]. split; [lia|]. split; [lia|]. intros i Hii.
    rewrite Z2Nat.id in Hii by lia. nia.
  - intros Hl. split; [f_equal; lia|]. nia.
Qed.

(** ** What the views read and write *)
Section Final.
Context {V : Type}.
Implicit Types (m : mem V) (x : V).

Lemma view1_ok b a d L : vinv b a d L -> (L <= H64)%Z ->
  (forall i p, nth_error (pos a d (sz1 b)) i = Some p -> forall m x,
     get1 b (Z.of_nat i) m = mload m (cell (part1 b) (base1 b) (Z.of_nat p)) /\
     put1 b (Z.of_nat i) x m = mstore m (cell (part1 b) (base1 b) (Z.of_nat p)) x /\
     (part1 b = None -> array1 b (Z.of_nat i) m = mload m (base1 b + Z.of_nat p)%Z)) /\
  (forall i, ~ (0 <= i < Z.of_nat (length (pos a d (sz1 b))))%Z -> forall m x,
     get1 b i m = None /\ put1 b i x m = None /\ array1 b i m = None).
Proof.
  intros HV HL. split.
  - intros i p E m x. rewrite pos_nth in E. destruct (Nat.ltb_spec i (sz1 b)) as [Hi|]; [|discriminate].
    injection E as <-. assert (Hi' : (0 <= Z.of_nat i < Z.of_nat (sz1 b))%Z) by lia.
    assert (B : (0 <= a + Z.of_nat i * d < L)%Z) by (apply HV; assumption).
    rewrite Z2Nat.id by lia. unfold get1, put1. rewrite (index1_ok b a d L _ HV HL Hi'). cbn [bind].
    split; [reflexivity|]. split; [reflexivity|]. intros EP. unfold array1, ptr1. rewrite EP.
    destruct (Z.leb_spec 0 (Z.of_nat i)); [|lia]. destruct (Z.ltb_spec (Z.of_nat i) (Z.of_nat (sz1 b))); [|lia]. cbn [andb].
    f_equal. pose proof (data1_at b a d L _ HV HL Hi'). lia.
  - rewrite pos_length. intros i Hi m x. unfold get1, put1. rewrite index1_out by assumption.
    split; [reflexivity|]. split; [reflexivity|]. unfold array1.
    destruct (Z.leb_spec 0 i), (Z.ltb_spec i (Z.of_nat (sz1 b))); try reflexivity. lia.
Qed.

Lemma vector_ok (base : Z) (n : nat) (path : list pyslice) : (Z.of_nat n <= H64)%Z -> Forall good_slice path ->
  exists v, subviews1 (new1 base n) path = Some v /\ sz1 v = length (nested (seq 0 n) path) /\
    (forall i p, nth_error (nested (seq 0 n) path) i = Some p -> forall m x,
       get1 v (Z.of_nat i) m = mload m (base + Z.of_nat p)%Z /\
       put1 v (Z.of_nat i) x m = mstore m (base + Z.of_nat p)%Z x /\
       array1 v (Z.of_nat i) m = mload m (base + Z.of_nat p)%Z) /\
    (forall i, ~ (0 <= i < Z.of_nat (length (nested (seq 0 n) path)))%Z -> forall m x,
       get1 v i m = None /\ put1 v i x m = None /\ array1 v i m = None).
Proof.
  intros Hn HG. destruct (subviews1_ok path _ _ _ _ (new1_inv base n Hn) Hn HG) as (v & a & d & E & HV & P & B & Q).
  cbn [new1 part1 base1 sz1] in P, B, Q. rewrite pos_seq in Q.
  exists v. split; [exact E|]. split; [rewrite <- Q, pos_length; reflexivity|]. rewrite <- Q.
  destruct (view1_ok v a d _ HV Hn) as [H1 H2]. split; [|exact H2].
  intros i p Ei m x. destruct (H1 i p Ei m x) as (G1 & G2 & G3). rewrite P, B in *. cbn [cell] in *. auto.
Qed.

Lemma component_inv b re a d L : vinv b a d L -> vinv (component1 b re) a d L.
Proof. intros H; exact H. Qed.

Lemma component_ok (base : Z) (n : nat) (path path' : list pyslice) (re : bool) :
  (Z.of_nat n <= H64)%Z -> Forall good_slice path -> Forall good_slice path' ->
  exists v w, subviews1 (new1 base n) path = Some v /\ subviews1 (component1 v re) path' = Some w /\
    sz1 w = length (nested (seq 0 n) (path ++ path')) /\
    (forall i p, nth_error (nested (seq 0 n) (path ++ path')) i = Some p -> forall m x,
       let a := (base + 2 * Z.of_nat p + (if re then 0 else 1))%Z in
       get1 w (Z.of_nat i) m = mload m a /\ put1 w (Z.of_nat i) x m = mstore m a x).
Proof.
  intros Hn HG HG'. destruct (subviews1_ok path _ _ _ _ (new1_inv base n Hn) Hn HG) as (v & a & d & E & HV & P & B & Q).
  cbn [new1 part1 base1 sz1] in P, B, Q. rewrite pos_seq in Q.
  destruct (subviews1_ok path' _ _ _ _ (component_inv v re _ _ _ HV) Hn HG') as (w & a' & d' & E' & HV' & P' & B' & Q').
  cbn [component1 part1 base1 sz1] in P', B', Q'.
  exists v, w. split; [exact E|]. split; [exact E'|]. rewrite nested_app, <- Q, <- Q'.
  split; [rewrite pos_length; reflexivity|].
  intros i p Ei m x. destruct (view1_ok w a' d' _ HV' Hn) as [H1 _]. destruct (H1 i p Ei m x) as (G1 & G2 & _).
  rewrite P', B', B in *. cbv zeta. destruct re; cbn [cell] in *; [rewrite Z.add_0_r|]; auto.
Qed.

Lemma matrix_inv base r c path s t :
  (Z.of_nat r * Z.of_nat c < H64)%Z -> (Z.of_nat c < H64)%Z ->
  Forall (fun st => good_slice (fst st) /\ (0 < step_of (snd st))%Z) path -> good_slice s -> good_slice t ->
  nested (seq 0 c) (map snd path) <> [] ->
  exists v a0 d0 a1 d1, subviews2 (new2 base r c) (path ++ [(s, t)]) = Some v /\
    minv v a0 d0 a1 d1 (Z.of_nat r) (Z.of_nat c) /\ part2 v = None /\ base2 v = base /\
    pos a0 d0 (sz2_0 v) = nested (seq 0 r) (map fst path ++ [s]) /\
    pos a1 d1 (sz2_1 v) = nested (seq 0 c) (map snd path ++ [t]).
Proof.
  intros HMN HN HG Gs Gt Hne.
  destruct (subviews2_ok path _ _ _ _ _ _ _ (new2_inv base r c HN) HMN HN HG ltac:(lia)) as
    (v & a0 & d0 & a1 & d1 & E & HI & P & B & Q & R & D & S); [cbn [new2 sz2_1]; rewrite pos_seq; exact Hne|].
  cbn [new2 part2 base2 sz2_0 sz2_1] in P, B, Q, R. rewrite pos_seq in Q, R.
  destruct (subblock2_ok v a0 d0 a1 d1 _ _ s t HI HMN HN Gs Gt D S) as
    (w & x0 & y0 & x1 & y1 & E' & HI' & P' & B' & Q' & R' & _).
  exists w, x0, y0, x1, y1. split.
  - clear - E E'. revert E. generalize (new2 base r c). induction path as [|[s' t'] path IH]; intros b E; cbn [subviews2 app] in *.
    + injection E as ->. rewrite E'. reflexivity.
    + destruct (subblock2 b s' t'); cbn [bind] in *; [|discriminate]. apply IH; exact E.
  - split; [assumption|]. split; [congruence|]. split; [congruence|].
    rewrite !nested_app, <- Q, <- R. split; assumption.
Qed.

Lemma view2_ok b a0 d0 a1 d1 M N : minv b a0 d0 a1 d1 M N -> (M * N < H64)%Z -> (0 <= N)%Z -> part2 b = None ->
  (forall i j p q, nth_error (pos a0 d0 (sz2_0 b)) i = Some p -> nth_error (pos a1 d1 (sz2_1 b)) j = Some q -> forall m x,
     let a := (base2 b + (Z.of_nat p * N + Z.of_nat q))%Z in
     get2 b (Z.of_nat i) (Z.of_nat j) m = mload m a /\ put2 b (Z.of_nat i) (Z.of_nat j) x m = mstore m a x /\
     array2 b (Z.of_nat i) (Z.of_nat j) m = mload m a) /\
  (forall i j, ~ ((0 <= i < Z.of_nat (length (pos a0 d0 (sz2_0 b)))) /\ (0 <= j < Z.of_nat (length (pos a1 d1 (sz2_1 b)))))%Z ->
     forall m x, get2 b i j m = None /\ put2 b i j x m = None /\ array2 b i j m = None).
Proof.
  intros HI HL HN HP. split.
  - intros i j p q E E' m x. rewrite pos_nth in E, E'.
    destruct (Nat.ltb_spec i (sz2_0 b)) as [Hi|]; [|discriminate]. destruct (Nat.ltb_spec j (sz2_1 b)) as [Hj|]; [|discriminate].
    injection E as <-. injection E' as <-.
    assert (Hi' : (0 <= Z.of_nat i < Z.of_nat (sz2_0 b))%Z) by lia.
    assert (Hj' : (0 <= Z.of_nat j < Z.of_nat (sz2_1 b))%Z) by lia.
    assert (B0 : (0 <= a0 + Z.of_nat i * d0 < M)%Z) by (apply HI; assumption).
    assert (B1 : (0 <= a1 + Z.of_nat j * d1 < N)%Z) by (apply HI; assumption).
    rewrite !Z2Nat.id by lia. cbv zeta. unfold get2, put2. rewrite (index2_ok b a0 d0 a1 d1 M N _ _ HI HL Hi' Hj'), HP. cbn [bind cell].
    split; [reflexivity|]. split; [reflexivity|]. unfold array2, ptr2. rewrite HP.
    destruct (Z.leb_spec 0 (Z.of_nat i)); [|lia]. destruct (Z.ltb_spec (Z.of_nat i) (Z.of_nat (sz2_0 b))); [|lia].
    destruct (Z.leb_spec 0 (Z.of_nat j)); [|lia]. destruct (Z.ltb_spec (Z.of_nat j) (Z.of_nat (sz2_1 b))); [|lia]. cbn [andb].
    f_equal. pose proof (data2_at b a0 d0 a1 d1 M N _ _ HI HL Hi' Hj'). lia.
  - rewrite !pos_length. intros i j Hij m x. unfold get2, put2. rewrite index2_out by assumption.
    split; [reflexivity|]. split; [reflexivity|]. unfold array2.
    destruct (Z.leb_spec 0 i), (Z.ltb_spec i (Z.of_nat (sz2_0 b))), (Z.leb_spec 0 j), (Z.ltb_spec j (Z.of_nat (sz2_1 b)));
      cbn [andb]; try reflexivity. lia.
Qed.

Lemma matrix_ok (base : Z) (r c : nat) (path : list (pyslice * pyslice)) (s t : pyslice) :
  (Z.of_nat r * Z.of_nat c < H64)%Z -> (Z.of_nat c < H64)%Z ->
  Forall (fun st => good_slice (fst st) /\ (0 < step_of (snd st))%Z) path -> good_slice s -> good_slice t ->
  nested (seq 0 c) (map snd path) <> [] ->
  let rows := nested (seq 0 r) (map fst path ++ [s]) in
  let cols := nested (seq 0 c) (map snd path ++ [t]) in
  exists v, subviews2 (new2 base r c) (path ++ [(s, t)]) = Some v /\ sz2_0 v = length rows /\ sz2_1 v = length cols /\
    (forall i j p q, nth_error rows i = Some p -> nth_error cols j = Some q -> forall m x,
       let a := (base + (Z.of_nat p * Z.of_nat c + Z.of_nat q))%Z in
       get2 v (Z.of_nat i) (Z.of_nat j) m = mload m a /\ put2 v (Z.of_nat i) (Z.of_nat j) x m = mstore m a x /\
       array2 v (Z.of_nat i) (Z.of_nat j) m = mload m a) /\
    (forall i j, ~ ((0 <= i < Z.of_nat (length rows)) /\ (0 <= j < Z.of_nat (length cols)))%Z ->
       forall m x, get2 v i j m = None /\ put2 v i j x m = None /\ array2 v i j m = None).
Proof.
  intros HMN HN HG Gs Gt Hne rows cols. unfold rows, cols.
  destruct (matrix_inv base r c path s t HMN HN HG Gs Gt Hne) as (v & a0 & d0 & a1 & d1 & E & HI & P & B & Q & R).
  exists v. split; [exact E|]. rewrite <- Q, <- R, !pos_length. split; [reflexivity|]. split; [reflexivity|].
  destruct (view2_ok v a0 d0 a1 d1 _ _ HI HMN ltac:(lia) P) as [H1 H2]. rewrite !pos_length in H2. rewrite B in H1.
  split; [exact H1|exact H2].
Qed.

(** ** Rows and columns *)
Lemma pos_row r c i : (- Z.of_nat r <= i < Z.of_nat r)%Z ->
  pos ((if (i <? 0)%Z then i + Z.of_nat r else i) * Z.of_nat c) 1 c = row_cells r c i.
Proof.
  intros Hi. unfold pos, row_cells, wrap. apply map_ext. intros j. destruct (Z.ltb_spec i 0); nia.
Qed.
Lemma pos_col r c j : (- Z.of_nat c <= j < Z.of_nat c)%Z ->
  pos (if (j <? 0)%Z then j + Z.of_nat c else j) (Z.of_nat c) r = col_cells r c j.
Proof.
  intros Hj. unfold pos, col_cells, wrap. apply map_ext. intros i. destruct (Z.ltb_spec j 0); nia.
Qed.

Lemma names_ok base v a d L : vinv v a d L -> (L <= H64)%Z -> part1 v = None -> base1 v = base ->
  names1 (V:=V) base v (pos a d (sz1 v)).
Proof.
  intros HV HL P B. split; [rewrite pos_length; reflexivity|]. intros i p E m x.
  destruct (view1_ok v a d L HV HL) as [H1 _]. destruct (H1 i p E m x) as (G1 & G2 & G3).
  rewrite P, B in *. cbn [cell] in *. auto.
Qed.

Lemma row_view_ok base r c i (path : list pyslice) :
  (Z.of_nat r * Z.of_nat c < H64)%Z -> (Z.of_nat r < 2147483648)%Z -> (Z.of_nat c < H64)%Z ->
  (- Z.of_nat r <= i < Z.of_nat r)%Z -> Forall good_slice path ->
  exists b v, get_row (new2 base r c) i = Some b /\ subviews1 b path = Some v /\
    names1 (V:=V) base v (nested (row_cells r c i) path).
Proof.
  intros HMN Hr Hc Hi HG. destruct (row_inv base r c i HMN Hr Hc Hi) as (b & E & P & B & S & HV).
  assert (HL : (Z.of_nat r * Z.of_nat c <= H64)%Z) by lia.
  destruct (subviews1_ok path _ _ _ _ HV HL HG) as (v & a & d & E' & HV' & P' & B' & Q').
  rewrite S, pos_row in Q' by assumption. exists b, v. split; [exact E|]. split; [exact E'|].
  rewrite <- Q'. eapply names_ok; eauto; congruence.
Qed.
Lemma col_view_ok base r c j (path : list pyslice) :
  (Z.of_nat r * Z.of_nat c < H64)%Z -> (Z.of_nat c < 2147483648)%Z ->
  (- Z.of_nat c <= j < Z.of_nat c)%Z -> Forall good_slice path ->
  exists b v, get_col (new2 base r c) j = Some b /\ subviews1 b path = Some v /\
    names1 (V:=V) base v (nested (col_cells r c j) path).
Proof.
  intros HMN Hc Hj HG. destruct (col_inv base r c j HMN Hc Hj) as (b & E & P & B & S & HV).
  assert (HL : (Z.of_nat r * Z.of_nat c <= H64)%Z) by lia.
  destruct (subviews1_ok path _ _ _ _ HV HL HG) as (v & a & d & E' & HV' & P' & B' & Q').
  rewrite S, pos_col in Q' by assumption. exists b, v. split; [exact E|]. split; [exact E'|].
  rewrite <- Q'. eapply names_ok; eauto; congruence.
Qed.
Lemma diag_view_ok base r c (path : list pyslice) :
  (Z.of_nat r * Z.of_nat c < H64)%Z -> (Z.of_nat c < H64 - 1)%Z -> Forall good_slice path ->
  exists b v, get_diag (new2 base r c) = Some b /\ subviews1 b path = Some v /\
    names1 (V:=V) base v (nested (map (fun i => i * c + i) (seq 0 (Nat.min r c))) path).
Proof.
  intros HMN Hc HG. destruct (diag_inv base r c HMN Hc) as (b & E & P & B & S & HV).
  assert (HL : (Z.of_nat r * Z.of_nat c <= H64)%Z) by lia.
  destruct (subviews1_ok path _ _ _ _ HV HL HG) as (v & a & d & E' & HV' & P' & B' & Q').
  exists b, v. split; [exact E|]. split; [exact E'|].
  assert (Ep : pos 0 (Z.of_nat c + 1) (sz1 b) = map (fun i => i * c + i) (seq 0 (Nat.min r c))).
  { rewrite S. unfold pos. apply map_ext. intros k. lia. }
  rewrite Ep in Q'. rewrite <- Q'. eapply names_ok; eauto; congruence.
Qed.

(** ** Assignment to subscripts *)
Lemma at1_ok b a d L i : vinv b a d L -> (L <= H64)%Z -> part1 b = None -> i < sz1 b ->
  at1 (data1 b) i = (base1 b + (a + Z.of_nat i * d))%Z.
Proof.
  intros HV HL P Hi. unfold at1, data1, ptr1; cbn [p1 s1 n1]. rewrite P.
  pose proof (data1_at b a d L (Z.of_nat i) HV HL ltac:(lia)). lia.
Qed.

Lemma own1_ok b a d L m : vinv b a d L -> (L <= H64)%Z -> part1 b = None ->
  (forall k, (0 <= k < L)%Z -> m (base1 b + k)%Z <> None) -> own1 m (data1 b).
Proof.
  intros HV HL P Hm. split; change (n1 (data1 b)) with (sz1 b).
  - intros i Hi. rewrite (at1_ok b a d L) by assumption. apply Hm. apply HV. lia.
  - intros i i' Hi Hi'. rewrite !(at1_ok b a d L) by assumption. destruct HV as (_ & _ & _ & _ & Hd & _). nia.
Qed.

Lemma positions_all n s : is_all s = true -> positions s n = seq 0 n.
Proof.
  destruct s as [[?|] [?|] [?|]]; try discriminate. intros _. unfold positions, bound; cbn [s_start s_stop s_step].
  change (0 <? 1)%Z with true. cbn iota.
  transitivity (filter (fun _ => true) (seq 0 n)).
  - apply filter_ext_in. intros x Hx. apply in_seq in Hx. rewrite Z.mod_1_r.
    destruct (Z.leb_spec 0 (Z.of_nat x)); [|lia]. destruct (Z.ltb_spec (Z.of_nat x) (Z.of_nat n)); [|lia]. reflexivity.
  - generalize (seq 0 n). intros l; induction l as [|y l IH]; cbn; [reflexivity|f_equal; exact IH].
Qed.
Lemma items_all (l : list nat) s : is_all s = true -> items 0 l s = l.
Proof.
  intros H. unfold items. rewrite positions_all by assumption. apply nth_error_ext. intros i.
  rewrite nth_error_map_seq. destruct (Nat.ltb_spec i (length l)).
  - rewrite Nat.add_0_l. symmetry. apply nth_error_nth'. assumption.
  - symmetry. apply nth_error_None. assumption.
Qed.

(** Either way of assigning to a slice works on a view of its elements. *)
Lemma setslice_view b a d L s v m : vinv b a d L -> (L <= H64)%Z -> good_slice s ->
  exists b' a' d', vector_setslice b s v m = assign_value1 b' v m /\ vinv b' a' d' L /\ part1 b' = part1 b /\
    base1 b' = base1 b /\ pos a' d' (sz1 b') = items 0 (pos a d (sz1 b)) s.
Proof.
  intros HV HL G. unfold vector_setslice. destruct (is_all s) eqn:E.
  - exists b, a, d. split; [reflexivity|]. split; [assumption|]. split; [reflexivity|]. split; [reflexivity|].
    symmetry. apply items_all; assumption.
  - destruct (subblock1_ok b a d L s HV HL G) as (b' & a' & d' & E' & H). rewrite E'; cbn [bind].
    exists b', a', d'. split; [reflexivity|exact H].
Qed.

Lemma assign1_view b a d L w a' d' L' m :
  vinv b a d L -> (L <= H64)%Z -> part1 b = None -> vinv w a' d' L' -> (L' <= H64)%Z -> part1 w = None ->
  (forall k, (0 <= k < L)%Z -> m (base1 b + k)%Z <> None) -> (forall k, (0 <= k < L')%Z -> m (base1 w + k)%Z <> None) ->
  (base1 b + L <= base1 w)%Z \/ (base1 w + L' <= base1 b)%Z -> sz1 b <= sz1 w ->
  exists m', assign1 b w m = Some m' /\
    (forall i p q, nth_error (pos a d (sz1 b)) i = Some p -> nth_error (pos a' d' (sz1 w)) i = Some q ->
       m' (base1 b + Z.of_nat p)%Z = m (base1 w + Z.of_nat q)%Z) /\
    (forall k, (forall p, In p (pos a d (sz1 b)) -> k <> (base1 b + Z.of_nat p)%Z) -> m' k = m k).
Proof.
  intros HV HL P HV' HL' P' Hm Hm' Hap Hsz. unfold assign1.
  destruct (copy1_ok None (data1 b) (data1 w) m) as (m' & E & A1 & A2).
  - exact Hsz.
  - eapply own1_ok; eauto.
  - exact (proj1 (own1_ok w a' d' L' m HV' HL' P' Hm')).
  - left. intros i j Hi Hj. cbn [data1 n1] in Hi, Hj. rewrite (at1_ok b a d L), (at1_ok w a' d' L') by assumption.
    assert (0 <= a + Z.of_nat i * d < L)%Z by (apply HV; lia).
    assert (0 <= a' + Z.of_nat j * d' < L')%Z by (apply HV'; lia). lia.
  - exists m'. split; [exact E|]. cbn [data1 n1] in A1, A2. split.
    + intros i p q Ep Eq. rewrite pos_nth in Ep, Eq. destruct (Nat.ltb_spec i (sz1 b)) as [Hi|]; [|discriminate].
      destruct (Nat.ltb_spec i (sz1 w)) as [Hi'|]; [|discriminate]. injection Ep as <-. injection Eq as <-.
      destruct (A1 i Hi) as (x & Hx & Hx'). rewrite (at1_ok w a' d' L') in Hx by assumption.
      rewrite (at1_ok b a d L) in Hx' by assumption.
      assert (0 <= a + Z.of_nat i * d < L)%Z by (apply HV; lia).
      assert (0 <= a' + Z.of_nat i * d' < L')%Z by (apply HV'; lia).
      rewrite !Z2Nat.id by lia. rewrite Hx, Hx'. reflexivity.
    + intros k Hk. apply A2. intros i Hi. rewrite (at1_ok b a d L) by assumption.
      assert (0 <= a + Z.of_nat i * d < L)%Z by (apply HV; lia).
      specialize (Hk (Z.to_nat (a + Z.of_nat i * d))). rewrite Z2Nat.id in Hk by lia. apply Hk.
      apply (nth_error_In _ i). rewrite pos_nth. destruct (Nat.ltb_spec i (sz1 b)); [reflexivity|lia].
Qed.

Lemma scalar1_view b a d L x m : vinv b a d L -> (L <= H64)%Z ->
  (forall k, (0 <= k < L)%Z -> m (cell (part1 b) (base1 b) k) <> None) ->
  exists m', assign_scalar1 b x m = Some m' /\
    (forall p, In p (pos a d (sz1 b)) -> m' (cell (part1 b) (base1 b) (Z.of_nat p)) = Some x) /\
    (forall k, (forall p, In p (pos a d (sz1 b)) -> k <> cell (part1 b) (base1 b) (Z.of_nat p)) -> m' k = m k).
Proof.
  intros HV HL Hm. unfold assign_scalar1.
  set (c := fun i : nat => cell (part1 b) (base1 b) (a + Z.of_nat i * d)).
  destruct (loop_inv (fun i m => put1 b (Z.of_nat i) x m)
    (fun i m' => (forall k, m' k = None <-> m k = None) /\ (forall j, j < i -> m' (c j) = Some x) /\
                 (forall k, (forall j, j < i -> k <> c j) -> m' k = m k)) (sz1 b) 0 m) as (m' & E & _ & H1 & H2).
  - split; [tauto|]. split; [intros; lia|reflexivity].
  - intros i t Hi (T0 & T1 & T2). unfold put1. rewrite (index1_ok b a d L) by (assumption || lia). cbn [bind].
    assert (B : (0 <= a + Z.of_nat i * d < L)%Z) by (apply HV; lia).
    fold (c i). unfold mstore. specialize (Hm _ B). fold (c i) in Hm.
    destruct (t (c i)) eqn:Et; [|apply T0 in Et; contradiction].
    eexists. split; [reflexivity|]. split; [|split].
    + intros k. unfold mupd. destruct (Z.eqb_spec k (c i)) as [->|]; [split; [discriminate|contradiction]|apply T0].
    + intros j Hj. unfold mupd. destruct (Z.eqb_spec (c j) (c i)); [reflexivity|].
      apply T1. destruct (Nat.eq_dec j i) as [->|]; [contradiction|lia].
    + intros k Hk. unfold mupd. destruct (Z.eqb_spec k (c i)) as [->|]; [exfalso; apply (Hk i); lia|].
      apply T2. intros j Hj. apply Hk. lia.
  - exists m'. split; [exact E|]. cbn [Nat.add] in H1, H2. split.
    + intros p Hp. apply In_nth_error in Hp. destruct Hp as [i Hi]. rewrite pos_nth in Hi.
      destruct (Nat.ltb_spec i (sz1 b)) as [Hii|]; [|discriminate]. injection Hi as <-.
      assert (B : (0 <= a + Z.of_nat i * d < L)%Z) by (apply HV; lia). rewrite Z2Nat.id by lia. apply H1. exact Hii.
    + intros k Hk. apply H2. intros j Hj. unfold c.
      assert (B : (0 <= a + Z.of_nat j * d < L)%Z) by (apply HV; lia).
      specialize (Hk (Z.to_nat (a + Z.of_nat j * d))). rewrite Z2Nat.id in Hk by lia. apply Hk.
      apply (nth_error_In _ j). rewrite pos_nth. destruct (Nat.ltb_spec j (sz1 b)); [reflexivity|lia].
Qed.

Lemma vector_assign_ok (bv bw : Z) (n k : nat) (path : list pyslice) (s : pyslice) (path' : list pyslice) (m : mem V) :
  (Z.of_nat n <= H64)%Z -> (Z.of_nat k <= H64)%Z ->
  Forall good_slice path -> good_slice s -> Forall good_slice path' ->
  (forall p, p < n -> m (bv + Z.of_nat p)%Z <> None) -> (forall p, p < k -> m (bw + Z.of_nat p)%Z <> None) ->
  (bv + Z.of_nat n <= bw)%Z \/ (bw + Z.of_nat k <= bv)%Z ->
  let target := nested (seq 0 n) (path ++ [s]) in
  let source := nested (seq 0 k) path' in
  length target <= length source ->
  exists v w m', subviews1 (new1 bv n) path = Some v /\ subviews1 (new1 bw k) path' = Some w /\
    vector_setslice v s (VVector w) m = Some m' /\
    (forall i p q, nth_error target i = Some p -> nth_error source i = Some q ->
       m' (bv + Z.of_nat p)%Z = m (bw + Z.of_nat q)%Z) /\
    (forall a, (forall p, In p target -> a <> (bv + Z.of_nat p)%Z) -> m' a = m a).
Proof.
  intros Hn Hk G Gs G' Mv Mw Hap target source Hlen. unfold target, source in *.
  destruct (subviews1_ok path _ _ _ _ (new1_inv bv n Hn) Hn G) as (v & a & d & E & HV & P & B & Q).
  destruct (subviews1_ok path' _ _ _ _ (new1_inv bw k Hk) Hk G') as (w & a' & d' & E' & HV' & P' & B' & Q').
  cbn [new1 part1 base1 sz1] in *. rewrite pos_seq in Q, Q'.
  destruct (setslice_view v a d _ s (VVector w) m HV Hn Gs) as (u & a2 & d2 & E2 & HV2 & P2 & B2 & Q2).
  rewrite nested_app in *. cbn [nested fold_left] in *. fold (nested (seq 0 n) path) in *. rewrite <- Q, <- Q2, <- Q' in *.
  destruct (assign1_view u a2 d2 _ w a' d' _ m HV2 Hn ltac:(congruence) HV' Hk P') as (m' & E3 & A1 & A2).
  - intros j Hj. rewrite B2, B. rewrite <- (Z2Nat.id j) by lia. apply Mv. lia.
  - intros j Hj. rewrite B'. rewrite <- (Z2Nat.id j) by lia. apply Mw. lia.
  - rewrite B2, B, B'. exact Hap.
  - rewrite !pos_length in Hlen. exact Hlen.
  - exists v, w, m'. split; [exact E|]. split; [exact E'|]. split; [rewrite E2; exact E3|].
    rewrite B2, B, B' in *. split; assumption.
Qed.

Lemma vector_scalar_ok (base : Z) (n : nat) (path : list pyslice) (s : pyslice) (x : V) (m : mem V) :
  (Z.of_nat n <= H64)%Z -> Forall good_slice path -> good_slice s ->
  (forall p, p < n -> m (base + Z.of_nat p)%Z <> None) ->
  let target := nested (seq 0 n) (path ++ [s]) in
  exists v m', subviews1 (new1 base n) path = Some v /\ vector_setslice v s (VScalar x) m = Some m' /\
    (forall p, In p target -> m' (base + Z.of_nat p)%Z = Some x) /\
    (forall a, (forall p, In p target -> a <> (base + Z.of_nat p)%Z) -> m' a = m a).
Proof.
  intros Hn G Gs Mv target. unfold target.
  destruct (subviews1_ok path _ _ _ _ (new1_inv base n Hn) Hn G) as (v & a & d & E & HV & P & B & Q).
  cbn [new1 part1 base1 sz1] in *. rewrite pos_seq in Q.
  destruct (setslice_view v a d _ s (VScalar x) m HV Hn Gs) as (u & a2 & d2 & E2 & HV2 & P2 & B2 & Q2).
  rewrite nested_app in *. cbn [nested fold_left] in *. fold (nested (seq 0 n) path) in *. rewrite <- Q, <- Q2 in *.
  destruct (scalar1_view u a2 d2 _ x m HV2 Hn) as (m' & E3 & A1 & A2).
  - rewrite P2, P, B2, B. cbn [cell]. intros j Hj. rewrite <- (Z2Nat.id j) by lia. apply Mv. lia.
  - exists v, m'. split; [exact E|]. split; [rewrite E2; exact E3|].
    rewrite P2, P, B2, B in *. cbn [cell] in *. split; assumption.
Qed.

(** ** One integer in the subscript of a whole matrix *)
Lemma line_view base r c k ps : (Z.of_nat r * Z.of_nat c < H64)%Z -> (Z.of_nat r < 2147483648)%Z -> (Z.of_nat c < 2147483648)%Z ->
  good_subscript k -> line_cells r c k = Some ps ->
  exists b a d, matrix_view (new2 base r c) k = Some (Vec b) /\ vinv b a d (Z.of_nat r * Z.of_nat c) /\
    part1 b = None /\ base1 b = base /\ pos a d (sz1 b) = ps /\
    forall v m, matrix_setitem (new2 base r c) k v m = assign_value1 (V := V) b v m.
Proof.
  intros HMN Hr Hc G E. pose proof H_big. assert (HL : (Z.of_nat r * Z.of_nat c <= H64)%Z) by lia.
  unfold line_cells in E. destruct k as [i|s|i j|s t|s j|i s]; try discriminate; cbn [good_subscript matrix_view matrix_setitem] in *.
  - destruct (Z.leb_spec (- Z.of_nat r) i), (Z.ltb_spec i (Z.of_nat r)); try discriminate. injection E as <-.
    destruct (row_inv base r c i HMN Hr ltac:(lia) ltac:(lia)) as (b & E & P & B & S & HV). rewrite E; cbn [bind].
    exists b. eexists _, _. split; [reflexivity|]. split; [exact HV|]. split; [assumption|]. split; [assumption|].
    split; [rewrite S; apply pos_row; lia|reflexivity].
  - destruct (Z.leb_spec (- Z.of_nat c) j), (Z.ltb_spec j (Z.of_nat c)); try discriminate. injection E as <-.
    destruct (col_inv base r c j HMN Hc ltac:(lia)) as (b & E & P & B & S & HV). rewrite E; cbn [bind].
    destruct (subblock1_ok b _ _ _ s HV HL G) as (b' & a & d & E' & HV' & P' & B' & Q'). rewrite E'; cbn [bind].
    exists b', a, d. split; [reflexivity|]. split; [assumption|]. split; [congruence|]. split; [congruence|].
    split; [rewrite Q', S, pos_col by lia; reflexivity|reflexivity].
  - destruct (Z.leb_spec (- Z.of_nat r) i), (Z.ltb_spec i (Z.of_nat r)); try discriminate. injection E as <-.
    destruct (row_inv base r c i HMN Hr ltac:(lia) ltac:(lia)) as (b & E & P & B & S & HV). rewrite E; cbn [bind].
    destruct (subblock1_ok b _ _ _ s HV HL G) as (b' & a & d & E' & HV' & P' & B' & Q'). rewrite E'; cbn [bind].
    exists b', a, d. split; [reflexivity|]. split; [assumption|]. split; [congruence|]. split; [congruence|].
    split; [rewrite Q', S, pos_row by lia; reflexivity|reflexivity].
Qed.

Lemma line_view_ok base r c k ps (path : list pyslice) :
  (Z.of_nat r * Z.of_nat c < H64)%Z -> (Z.of_nat r < 2147483648)%Z -> (Z.of_nat c < 2147483648)%Z ->
  good_subscript k -> line_cells r c k = Some ps -> Forall good_slice path ->
  exists b v, matrix_view (new2 base r c) k = Some (Vec b) /\ subviews1 b path = Some v /\
    names1 (V := V) base v (nested ps path).
Proof.
  intros HMN Hr Hc G E HG. destruct (line_view base r c k ps HMN Hr Hc G E) as (b & a & d & E1 & HV & P & B & Q & _).
  assert (HL : (Z.of_nat r * Z.of_nat c <= H64)%Z) by lia.
  destruct (subviews1_ok path _ _ _ _ HV HL HG) as (v & a' & d' & E' & HV' & P' & B' & Q').
  exists b, v. split; [exact E1|]. split; [exact E'|]. rewrite <- Q, <- Q'. eapply names_ok; eauto; congruence.
Qed.

Lemma line_assign_ok (bm bw : Z) (r c n : nat) k ps (path' : list pyslice) (m : mem V) :
  (Z.of_nat r * Z.of_nat c < H64)%Z -> (Z.of_nat r < 2147483648)%Z -> (Z.of_nat c < 2147483648)%Z -> (Z.of_nat n <= H64)%Z ->
  good_subscript k -> line_cells r c k = Some ps -> Forall good_slice path' ->
  (forall p, p < r * c -> m (bm + Z.of_nat p)%Z <> None) -> (forall p, p < n -> m (bw + Z.of_nat p)%Z <> None) ->
  (bm + Z.of_nat (r * c) <= bw)%Z \/ (bw + Z.of_nat n <= bm)%Z ->
  length ps <= length (nested (seq 0 n) path') ->
  exists w m', subviews1 (new1 bw n) path' = Some w /\ matrix_setitem (new2 bm r c) k (VVector w) m = Some m' /\
    (forall i p q, nth_error ps i = Some p -> nth_error (nested (seq 0 n) path') i = Some q ->
       m' (bm + Z.of_nat p)%Z = m (bw + Z.of_nat q)%Z) /\
    (forall a, (forall p, In p ps -> a <> (bm + Z.of_nat p)%Z) -> m' a = m a).
Proof.
  intros HMN Hr Hc Hn G E HG Mm Mw Hap Hlen.
  destruct (line_view bm r c k ps HMN Hr Hc G E) as (b & a & d & E1 & HV & P & B & Q & HS).
  destruct (subviews1_ok path' _ _ _ _ (new1_inv bw n Hn) Hn HG) as (w & a' & d' & E' & HV' & P' & B' & Q').
  cbn [new1 part1 base1 sz1] in *. rewrite pos_seq in Q'. rewrite <- Q' in *. rewrite <- Q in *.
  destruct (assign1_view b a d _ w a' d' _ m HV ltac:(lia) P HV' Hn P') as (m' & E3 & A1 & A2).
  - intros j Hj. rewrite B. rewrite <- (Z2Nat.id j) by lia. apply Mm. nia.
  - intros j Hj. rewrite B'. rewrite <- (Z2Nat.id j) by lia. apply Mw. lia.
  - rewrite B, B'. rewrite Nat2Z.inj_mul in Hap. exact Hap.
  - rewrite !pos_length in Hlen. exact Hlen.
  - exists w, m'. split; [exact E'|]. split; [rewrite HS; exact E3|]. rewrite B, B' in *. split; assumption.
Qed.

Lemma line_scalar_ok (bm : Z) (r c : nat) k ps (x : V) (m : mem V) :
  (Z.of_nat r * Z.of_nat c < H64)%Z -> (Z.of_nat r < 2147483648)%Z -> (Z.of_nat c < 2147483648)%Z ->
  good_subscript k -> line_cells r c k = Some ps ->
  (forall p, p < r * c -> m (bm + Z.of_nat p)%Z <> None) ->
  exists m', matrix_setitem (new2 bm r c) k (VScalar x) m = Some m' /\
    (forall p, In p ps -> m' (bm + Z.of_nat p)%Z = Some x) /\
    (forall a, (forall p, In p ps -> a <> (bm + Z.of_nat p)%Z) -> m' a = m a).
Proof.
  intros HMN Hr Hc G E Mm.
  destruct (line_view bm r c k ps HMN Hr Hc G E) as (b & a & d & E1 & HV & P & B & Q & HS). rewrite <- Q in *.
  destruct (scalar1_view b a d _ x m HV ltac:(lia)) as (m' & E3 & A1 & A2).
  - rewrite P, B; cbn [cell]. intros j Hj. rewrite <- (Z2Nat.id j) by lia. apply Mm. nia.
  - exists m'. split; [rewrite HS; exact E3|]. rewrite P, B in *. cbn [cell] in *. split; assumption.
Qed.

(** ** Assignment to parts of matrices *)
Lemma at2_ok b a0 d0 a1 d1 M N i j : minv b a0 d0 a1 d1 M N -> (M * N < H64)%Z -> part2 b = None ->
  i < sz2_0 b -> j < sz2_1 b ->
  at2 (data2 b) i j = (base2 b + ((a0 + Z.of_nat i * d0) * N + (a1 + Z.of_nat j * d1)))%Z.
Proof.
  intros HI HL P Hi Hj. unfold at2, data2, ptr2; cbn [p2 s2_0 s2_1 n2_0 n2_1]. rewrite P.
  pose proof (data2_at b a0 d0 a1 d1 M N (Z.of_nat i) (Z.of_nat j) HI HL ltac:(lia) ltac:(lia)). lia.
Qed.

Lemma own2_ok b a0 d0 a1 d1 M N m : minv b a0 d0 a1 d1 M N -> (M * N < H64)%Z -> part2 b = None ->
  (forall p q, (0 <= p < M)%Z -> (0 <= q < N)%Z -> m (base2 b + (p * N + q))%Z <> None) -> own2 m (data2 b).
Proof.
  intros HI HL P Hm. split; change (n2_0 (data2 b)) with (sz2_0 b); change (n2_1 (data2 b)) with (sz2_1 b).
  - intros i j Hi Hj. rewrite (at2_ok b a0 d0 a1 d1 M N) by assumption. apply Hm; apply HI; lia.
  - intros i j i' j' Hi Hj Hi' Hj'. rewrite !(at2_ok b a0 d0 a1 d1 M N) by assumption. intros E.
    destruct HI as (_ & _ & _ & _ & _ & _ & Hd0 & Hd1 & HI & HJ).
    assert (A := HI (Z.of_nat i) ltac:(lia)). assert (A' := HI (Z.of_nat i') ltac:(lia)).
    assert (B := HJ (Z.of_nat j) ltac:(lia)). assert (B' := HJ (Z.of_nat j') ltac:(lia)).
    assert (a0 + Z.of_nat i * d0 = a0 + Z.of_nat i' * d0)%Z by nia. nia.
Qed.

Lemma set2_view base r c path s t v m :
  (Z.of_nat r * Z.of_nat c < H64)%Z -> (Z.of_nat c < H64)%Z ->
  Forall (fun st => good_slice (fst st) /\ (0 < step_of (snd st))%Z) path -> good_slice s -> good_slice t ->
  nested (seq 0 c) (map snd path) <> [] ->
  exists u b a0 d0 a1 d1, subviews2 (new2 base r c) path = Some u /\
    matrix_setitem (V := V) u (SliceSlice s t) v m = assign_value2 b v m /\
    minv b a0 d0 a1 d1 (Z.of_nat r) (Z.of_nat c) /\ part2 b = None /\ base2 b = base /\
    pos a0 d0 (sz2_0 b) = nested (seq 0 r) (map fst path ++ [s]) /\
    pos a1 d1 (sz2_1 b) = nested (seq 0 c) (map snd path ++ [t]).
Proof.
  intros HMN HN HG Gs Gt Hne.
  destruct (subviews2_ok path _ _ _ _ _ _ _ (new2_inv base r c HN) HMN HN HG ltac:(lia)) as
    (u & a0 & d0 & a1 & d1 & E & HI & P & B & Q & R & D & S); [cbn [new2 sz2_1]; rewrite pos_seq; exact Hne|].
  cbn [new2 part2 base2 sz2_0 sz2_1] in P, B, Q, R. rewrite pos_seq in Q, R.
  exists u. rewrite !nested_app. cbn [nested fold_left matrix_setitem]. fold (nested (seq 0 r) (map fst path)).
  fold (nested (seq 0 c) (map snd path)). rewrite <- Q, <- R.
  destruct (is_all s && is_all t) eqn:EA.
  - apply andb_true_iff in EA. destruct EA as [EA EB]. exists u, a0, d0, a1, d1.
    rewrite !items_all by assumption. split; [exact E|]. split; [reflexivity|]. split; [assumption|]. auto.
  - destruct (subblock2_ok u a0 d0 a1 d1 _ _ s t HI HMN HN Gs Gt D S) as
      (w & x0 & y0 & x1 & y1 & E' & HI' & P' & B' & Q' & R' & _).
    exists w, x0, y0, x1, y1. split; [exact E|]. rewrite E'; cbn [bind]. split; [reflexivity|].
    split; [assumption|]. split; [congruence|]. split; [congruence|]. split; assumption.
Qed.

Lemma matrix_assign_ok (bm bw : Z) (r c r' c' : nat) (path path' : list (pyslice * pyslice)) (s t s' t' : pyslice) (m : mem V) :
  (Z.of_nat r * Z.of_nat c < H64)%Z -> (Z.of_nat c < H64)%Z ->
  (Z.of_nat r' * Z.of_nat c' < H64)%Z -> (Z.of_nat c' < H64)%Z ->
  Forall (fun st => good_slice (fst st) /\ (0 < step_of (snd st))%Z) path -> good_slice s -> good_slice t ->
  Forall (fun st => good_slice (fst st) /\ (0 < step_of (snd st))%Z) path' -> good_slice s' -> good_slice t' ->
  nested (seq 0 c) (map snd path) <> [] -> nested (seq 0 c') (map snd path') <> [] ->
  (forall p, p < r * c -> m (bm + Z.of_nat p)%Z <> None) -> (forall p, p < r' * c' -> m (bw + Z.of_nat p)%Z <> None) ->
  (bm + Z.of_nat (r * c) <= bw)%Z \/ (bw + Z.of_nat (r' * c') <= bm)%Z ->
  let rows := nested (seq 0 r) (map fst path ++ [s]) in
  let cols := nested (seq 0 c) (map snd path ++ [t]) in
  let rows' := nested (seq 0 r') (map fst path' ++ [s']) in
  let cols' := nested (seq 0 c') (map snd path' ++ [t']) in
  length rows = length rows' -> length cols = length cols' -> rows <> [] -> cols <> [] ->
  exists u w m', subviews2 (new2 bm r c) path = Some u /\ subviews2 (new2 bw r' c') (path' ++ [(s', t')]) = Some w /\
    matrix_setitem u (SliceSlice s t) (VMatrix w) m = Some m' /\
    (forall i j p q p' q', nth_error rows i = Some p -> nth_error cols j = Some q ->
       nth_error rows' i = Some p' -> nth_error cols' j = Some q' ->
       m' (bm + Z.of_nat (p * c + q))%Z = m (bw + Z.of_nat (p' * c' + q'))%Z) /\
    (forall a, (forall p q, In p rows -> In q cols -> a <> (bm + Z.of_nat (p * c + q))%Z) -> m' a = m a).
Proof.
  intros H1 H2 H3 H4 G Gs Gt G' Gs' Gt' N1 N2 Mm Mw Hap rows cols rows' cols'. unfold rows, cols, rows', cols'.
  destruct (matrix_inv bw r' c' path' s' t' H3 H4 G' Gs' Gt' N2) as (w & a0' & d0' & a1' & d1' & E' & HI' & P' & B' & Q' & R').
  destruct (set2_view bm r c path s t (VMatrix w) m H1 H2 G Gs Gt N1) as (u & b & a0 & d0 & a1 & d1 & E & ES & HI & P & B & Q & R).
  rewrite <- Q, <- R, <- Q', <- R', !pos_length. intros L1 L2 L3 L4.
  assert (Hown : own2 m (data2 b)).
  { eapply own2_ok; eauto. intros p q Hp Hq. rewrite B. rewrite <- (Z2Nat.id (p * Z.of_nat c + q)) by nia. apply Mm. nia. }
  assert (Hown' : own2 m (data2 w)).
  { eapply own2_ok; eauto. intros p q Hp Hq. rewrite B'. rewrite <- (Z2Nat.id (p * Z.of_nat c' + q)) by nia. apply Mw. nia. }
  destruct (copy2_ok Row2 Row2 (data2 b) (data2 w) m) as (m' & EC & A1 & A2).
  - exact Hown.
  - exact (proj1 Hown').
  - split; symmetry; assumption.
  - intros i j i' j' Hi Hj Hi' Hj'. cbn [data2 n2_0 n2_1] in Hi, Hj, Hi', Hj'.
    rewrite (at2_ok b a0 d0 a1 d1 _ _ i j HI H1 P Hi Hj), (at2_ok w a0' d0' a1' d1' _ _ i' j' HI' H3 P' Hi' Hj').
    destruct HI as (_ & _ & _ & _ & _ & _ & _ & _ & HA & HB). destruct HI' as (_ & _ & _ & _ & _ & _ & _ & _ & HA' & HB').
    specialize (HA (Z.of_nat i) ltac:(lia)). specialize (HB (Z.of_nat j) ltac:(lia)).
    specialize (HA' (Z.of_nat i') ltac:(lia)). specialize (HB' (Z.of_nat j') ltac:(lia)). rewrite B, B'. nia.
  - cbn [data2 n2_0]. destruct (sz2_0 b); [exfalso; apply L3; reflexivity|lia].
  - cbn [data2 n2_1]. destruct (sz2_1 b); [exfalso; apply L4; reflexivity|lia].
  - discriminate.
  - exists u, w, m'. split; [exact E|]. split; [exact E'|]. split; [rewrite ES; exact EC|].
    cbn [data2 n2_0 n2_1] in A1, A2. split.
    + intros i j p q p' q' Ep Eq Ep' Eq'. rewrite pos_nth in Ep, Eq, Ep', Eq'.
      destruct (Nat.ltb_spec i (sz2_0 b)) as [Hi|]; [|discriminate]. destruct (Nat.ltb_spec j (sz2_1 b)) as [Hj|]; [|discriminate].
      destruct (Nat.ltb_spec i (sz2_0 w)) as [Hi'|]; [|discriminate]. destruct (Nat.ltb_spec j (sz2_1 w)) as [Hj'|]; [|discriminate].
      injection Ep as <-. injection Eq as <-. injection Ep' as <-. injection Eq' as <-.
      destruct (A1 i j Hi Hj) as (x & Hx & Hx').
      rewrite (at2_ok w a0' d0' a1' d1' _ _ i j HI' H3 P' Hi' Hj') in Hx.
      rewrite (at2_ok b a0 d0 a1 d1 _ _ i j HI H1 P Hi Hj) in Hx'.
      destruct HI as (_ & _ & _ & _ & _ & _ & _ & _ & HA & HB). destruct HI' as (_ & _ & _ & _ & _ & _ & _ & _ & HA' & HB').
      specialize (HA (Z.of_nat i) ltac:(lia)). specialize (HB (Z.of_nat j) ltac:(lia)).
      specialize (HA' (Z.of_nat i) ltac:(lia)). specialize (HB' (Z.of_nat j) ltac:(lia)).
      rewrite !Nat2Z.inj_add, !Nat2Z.inj_mul, !Z2Nat.id by lia. rewrite B in Hx'. rewrite B' in Hx. rewrite Hx, Hx'. reflexivity.
    + intros a Ha. apply A2. intros i j Hi Hj. rewrite (at2_ok b a0 d0 a1 d1 _ _ i j HI H1 P Hi Hj), B.
      destruct HI as (_ & _ & _ & _ & _ & _ & _ & _ & HA & HB).
      specialize (HA (Z.of_nat i) ltac:(lia)). specialize (HB (Z.of_nat j) ltac:(lia)).
      specialize (Ha (Z.to_nat (a0 + Z.of_nat i * d0)) (Z.to_nat (a1 + Z.of_nat j * d1))).
      rewrite Nat2Z.inj_add, Nat2Z.inj_mul, !Z2Nat.id in Ha by lia. apply Ha.
      * apply (nth_error_In _ i). rewrite pos_nth. destruct (Nat.ltb_spec i (sz2_0 b)); [reflexivity|lia].
      * apply (nth_error_In _ j). rewrite pos_nth. destruct (Nat.ltb_spec j (sz2_1 b)); [reflexivity|lia].
Qed.

Lemma matrix_scalar_ok (bm : Z) (r c : nat) (path : list (pyslice * pyslice)) (s t : pyslice) (x : V) (m : mem V) :
  (Z.of_nat r * Z.of_nat c < H64)%Z -> (Z.of_nat c < H64)%Z ->
  Forall (fun st => good_slice (fst st) /\ (0 < step_of (snd st))%Z) path -> good_slice s -> good_slice t ->
  nested (seq 0 c) (map snd path) <> [] ->
  (forall p, p < r * c -> m (bm + Z.of_nat p)%Z <> None) ->
  let rows := nested (seq 0 r) (map fst path ++ [s]) in
  let cols := nested (seq 0 c) (map snd path ++ [t]) in
  exists u m', subviews2 (new2 bm r c) path = Some u /\ matrix_setitem u (SliceSlice s t) (VScalar x) m = Some m' /\
    (forall p q, In p rows -> In q cols -> m' (bm + Z.of_nat (p * c + q))%Z = Some x) /\
    (forall a, (forall p q, In p rows -> In q cols -> a <> (bm + Z.of_nat (p * c + q))%Z) -> m' a = m a).
Proof.
  intros H1 H2 G Gs Gt N1 Mm rows cols. unfold rows, cols.
  destruct (set2_view bm r c path s t (VScalar x) m H1 H2 G Gs Gt N1) as (u & b & a0 & d0 & a1 & d1 & E & ES & HI & P & B & Q & R).
  rewrite <- Q, <- R. exists u. rewrite ES. cbn [assign_value2]. unfold assign_scalar2.
  set (cl := fun ij : nat * nat => (bm + ((a0 + Z.of_nat (fst ij) * d0) * Z.of_nat c + (a1 + Z.of_nat (snd ij) * d1)))%Z).
  rewrite (loop2_pairs (fun i j m => put2 b (Z.of_nat i) (Z.of_nat j) x m)).
  destruct (foldM_inv (fun ij m => put2 b (Z.of_nat (fst ij)) (Z.of_nat (snd ij)) x m)
    (fun done m' => (forall k, m' k = None <-> m k = None) /\ (forall ij, In ij done -> m' (cl ij) = Some x) /\
                 (forall k, (forall ij, In ij done -> k <> cl ij) -> m' k = m k)) (pairs (sz2_0 b) (sz2_1 b)) [] m) as (m' & E2 & _ & K1 & K2).
  - split; [tauto|]. split; [intros ? []|reflexivity].
  - intros pre [i j] post t0 Hl (T0 & T1 & T2). cbn [fst snd]. rewrite app_nil_l in T1, T2 |- *.
    assert (Hij : i < sz2_0 b /\ j < sz2_1 b) by (apply in_pairs; rewrite Hl; apply in_or_app; right; left; reflexivity).
    destruct Hij as [Hi Hj]. unfold put2.
    rewrite (index2_ok b a0 d0 a1 d1 _ _ _ _ HI H1) by lia. rewrite P, B. cbn [bind cell].
    assert (B0 : (0 <= a0 + Z.of_nat i * d0 < Z.of_nat r)%Z) by (apply HI; lia).
    assert (B1 : (0 <= a1 + Z.of_nat j * d1 < Z.of_nat c)%Z) by (apply HI; lia).
    assert (Hc : m (cl (i, j)) <> None).
    { unfold cl; cbn [fst snd]. rewrite <- (Z2Nat.id ((a0 + Z.of_nat i * d0) * Z.of_nat c + (a1 + Z.of_nat j * d1))) by nia.
      apply Mm. nia. }
    change (bm + ((a0 + Z.of_nat i * d0) * Z.of_nat c + (a1 + Z.of_nat j * d1)))%Z with (cl (i, j)).
    unfold mstore. destruct (t0 (cl (i, j))) eqn:Et; [|apply T0 in Et; contradiction].
    eexists. split; [reflexivity|]. split; [|split].
    + intros k. unfold mupd. destruct (Z.eqb_spec k (cl (i, j))) as [->|]; [split; [discriminate|contradiction]|apply T0].
    + intros ij Hin. unfold mupd. destruct (Z.eqb_spec (cl ij) (cl (i, j))); [reflexivity|].
      apply T1. apply in_app_or in Hin. destruct Hin as [|[<- |[]]]; [assumption|contradiction].
    + intros k Hk. unfold mupd. destruct (Z.eqb_spec k (cl (i, j))) as [->|].
      * exfalso. apply (Hk (i, j)); [apply in_or_app; right; left; reflexivity|reflexivity].
      * apply T2. intros ij Hin. apply Hk. apply in_or_app; left; exact Hin.
  - exists m'. split; [exact E|]. split; [exact E2|]. rewrite app_nil_l in K1, K2. split.
    + intros p q Hp Hq. apply In_nth_error in Hp. apply In_nth_error in Hq. destruct Hp as [i Hi], Hq as [j Hj].
      rewrite pos_nth in Hi, Hj. destruct (Nat.ltb_spec i (sz2_0 b)) as [Hii|]; [|discriminate].
      destruct (Nat.ltb_spec j (sz2_1 b)) as [Hjj|]; [|discriminate]. injection Hi as <-. injection Hj as <-.
      assert (B0 : (0 <= a0 + Z.of_nat i * d0 < Z.of_nat r)%Z) by (apply HI; lia).
      assert (B1 : (0 <= a1 + Z.of_nat j * d1 < Z.of_nat c)%Z) by (apply HI; lia).
      rewrite Nat2Z.inj_add, Nat2Z.inj_mul, !Z2Nat.id by lia. apply (K1 (i, j)). apply in_pairs. split; assumption.
    + intros k Hk. apply K2. intros [i j] Hin. apply in_pairs in Hin. destruct Hin as [Hi Hj]. unfold cl; cbn [fst snd].
      assert (B0 : (0 <= a0 + Z.of_nat i * d0 < Z.of_nat r)%Z) by (apply HI; lia).
      assert (B1 : (0 <= a1 + Z.of_nat j * d1 < Z.of_nat c)%Z) by (apply HI; lia).
      specialize (Hk (Z.to_nat (a0 + Z.of_nat i * d0)) (Z.to_nat (a1 + Z.of_nat j * d1))).
      rewrite Nat2Z.inj_add, Nat2Z.inj_mul, !Z2Nat.id in Hk by lia. apply Hk.
      * apply (nth_error_In _ i). rewrite pos_nth. destruct (Nat.ltb_spec i (sz2_0 b)); [reflexivity|lia].
      * apply (nth_error_In _ j). rewrite pos_nth. destruct (Nat.ltb_spec j (sz2_1 b)); [reflexivity|lia].
Qed.

(** ** Copies *)
Lemma copy_ok (base nb : Z) (n : nat) (path : list pyslice) (m : mem V) :
  (Z.of_nat n <= H64)%Z -> Forall good_slice path ->
  (forall p, p < n -> m (base + Z.of_nat p)%Z <> None) ->
  let l := nested (seq 0 n) path in
  (Z.of_nat (length l) <= H64)%Z ->
  (forall p, p < length l -> m (nb + Z.of_nat p)%Z <> None) ->
  (base + Z.of_nat n <= nb)%Z \/ (nb + Z.of_nat (length l) <= base)%Z ->
  exists v w m', subviews1 (new1 base n) path = Some v /\ copy_block1 v nb m = Some (w, m') /\ sz1 w = length l /\
    (forall i p, nth_error l i = Some p -> get1 w (Z.of_nat i) m' = m (base + Z.of_nat p)%Z) /\
    (forall a, ~ (nb <= a < nb + Z.of_nat (length l))%Z -> m' a = m a).
Proof.
  intros Hn HG Mv l Hl Mw Hap. unfold l in *.
  destruct (subviews1_ok path _ _ _ _ (new1_inv base n Hn) Hn HG) as (v & a & d & E & HV & P & B & Q).
  cbn [new1 part1 base1 sz1] in *. rewrite pos_seq in Q. rewrite <- Q in *. rewrite pos_length in *.
  destruct (assign1_view (new1 nb (sz1 v)) 0 1 (Z.of_nat (sz1 v)) v a d (Z.of_nat n) m) as (m' & E3 & A1 & A2); cbn [new1 part1 base1 sz1] in *.
  - apply new1_inv. exact Hl.
  - exact Hl.
  - reflexivity.
  - exact HV.
  - exact Hn.
  - exact P.
  - intros k Hk. rewrite <- (Z2Nat.id k) by lia. apply Mw. lia.
  - intros k Hk. rewrite B. rewrite <- (Z2Nat.id k) by lia. apply Mv. lia.
  - rewrite B. lia.
  - lia.
  - exists v, (new1 nb (sz1 v)), m'. split; [exact E|]. unfold copy_block1. rewrite E3; cbn [bind].
    split; [reflexivity|]. split; [reflexivity|]. rewrite pos_seq, B in *. split.
    + intros i p Ep. assert (Hi : i < sz1 v) by (rewrite pos_nth in Ep; destruct (Nat.ltb_spec i (sz1 v)); [assumption|discriminate]).
      destruct (view1_ok (new1 nb (sz1 v)) 0 1 _ (new1_inv nb _ Hl) Hl) as [G1 _].
      destruct (m (base + Z.of_nat p)%Z) as [x|] eqn:Ex.
      * destruct (G1 i i) with (m := m') (x := x) as (G2 & _); [rewrite pos_nth; cbn [new1 sz1]; destruct (Nat.ltb_spec i (sz1 v)); [f_equal; lia|lia]|].
        rewrite G2. cbn [new1 part1 base1 cell]. unfold mload. rewrite <- Ex. apply (A1 i i p); [|exact Ep].
        rewrite nth_error_seq. destruct (Nat.ltb_spec i (sz1 v)); [reflexivity|lia].
      * exfalso. rewrite pos_nth in Ep. destruct (Nat.ltb_spec i (sz1 v)) as [H0|]; [|discriminate]. injection Ep as <-.
        assert (Bd : (0 <= a + Z.of_nat i * d < Z.of_nat n)%Z) by (apply HV; lia).
        apply (Mv (Z.to_nat (a + Z.of_nat i * d))); [lia|exact Ex].
    + intros k Hk. apply A2. intros p Hp. apply in_seq in Hp. lia.
Qed.
(** Parts of complex matrices. *)
Lemma component2_inv b re a0 d0 a1 d1 M N : minv b a0 d0 a1 d1 M N -> minv (component2 b re) a0 d0 a1 d1 M N.
Proof. intros H; exact H. Qed.

Lemma component2_ok (base : Z) (r c : nat) (path : list (pyslice * pyslice)) (s t : pyslice) (re : bool) :
  (Z.of_nat r * Z.of_nat c < H64)%Z -> (Z.of_nat c < H64)%Z ->
  Forall (fun st => good_slice (fst st) /\ (0 < step_of (snd st))%Z) path -> good_slice s -> good_slice t ->
  nested (seq 0 c) (map snd path) <> [] ->
  let rows := nested (seq 0 r) (map fst path ++ [s]) in
  let cols := nested (seq 0 c) (map snd path ++ [t]) in
  exists v, subviews2 (new2 base r c) (path ++ [(s, t)]) = Some v /\
    sz2_0 (component2 v re) = length rows /\ sz2_1 (component2 v re) = length cols /\
    (forall i j p q, nth_error rows i = Some p -> nth_error cols j = Some q -> forall (m : mem V) (x : V),
       let a := (base + 2 * (Z.of_nat p * Z.of_nat c + Z.of_nat q) + (if re then 0 else 1))%Z in
       get2 (component2 v re) (Z.of_nat i) (Z.of_nat j) m = mload m a /\
       put2 (component2 v re) (Z.of_nat i) (Z.of_nat j) x m = mstore m a x).
Proof.
  intros HMN HN HG Gs Gt Hne rows cols. unfold rows, cols.
  destruct (matrix_inv base r c path s t HMN HN HG Gs Gt Hne) as (v & a0 & d0 & a1 & d1 & E & HI & P & B & Q & R).
  exists v. split; [exact E|]. rewrite <- Q, <- R, !pos_length. split; [reflexivity|]. split; [reflexivity|].
  intros i j p q Ep Eq m x. rewrite pos_nth in Ep, Eq.
  destruct (Nat.ltb_spec i (sz2_0 v)) as [Hi|]; [|discriminate]. destruct (Nat.ltb_spec j (sz2_1 v)) as [Hj|]; [|discriminate].
  injection Ep as <-. injection Eq as <-.
  apply (component2_inv v re) in HI. pose proof HI as HI0.
  destruct HI0 as (_ & _ & _ & _ & _ & _ & _ & _ & HA & HB). cbn [component2 sz2_0 sz2_1] in HA, HB.
  specialize (HA (Z.of_nat i) ltac:(lia)). specialize (HB (Z.of_nat j) ltac:(lia)).
  cbv zeta. rewrite !Z2Nat.id by lia. unfold get2, put2.
  rewrite (index2_ok (component2 v re) a0 d0 a1 d1 _ _ _ _ HI HMN) by (cbn [component2 sz2_0 sz2_1]; lia).
  cbn [component2 part2 base2 bind]. rewrite B. destruct re; cbn [cell]; [rewrite Z.add_0_r|]; split; reflexivity.
Qed.

(** Copies of matrices. *)
Lemma copy2_block_ok (base nb : Z) (r c : nat) (path : list (pyslice * pyslice)) (s t : pyslice) (m : mem V) :
  (Z.of_nat r * Z.of_nat c < H64)%Z -> (Z.of_nat c < H64)%Z ->
  Forall (fun st => good_slice (fst st) /\ (0 < step_of (snd st))%Z) path -> good_slice s -> good_slice t ->
  nested (seq 0 c) (map snd path) <> [] ->
  (forall p, p < r * c -> m (base + Z.of_nat p)%Z <> None) ->
  let rows := nested (seq 0 r) (map fst path ++ [s]) in
  let cols := nested (seq 0 c) (map snd path ++ [t]) in
  rows <> [] -> cols <> [] ->
  (Z.of_nat (length rows) * Z.of_nat (length cols) < H64)%Z ->
  (forall p, p < length rows * length cols -> m (nb + Z.of_nat p)%Z <> None) ->
  (base + Z.of_nat (r * c) <= nb)%Z \/ (nb + Z.of_nat (length rows * length cols) <= base)%Z ->
  exists v w m', subviews2 (new2 base r c) (path ++ [(s, t)]) = Some v /\ copy_block2 v nb m = Some (w, m') /\
    sz2_0 w = length rows /\ sz2_1 w = length cols /\
    (forall i j p q, nth_error rows i = Some p -> nth_error cols j = Some q ->
       get2 w (Z.of_nat i) (Z.of_nat j) m' = m (base + Z.of_nat (p * c + q))%Z) /\
    (forall a, ~ (nb <= a < nb + Z.of_nat (length rows * length cols))%Z -> m' a = m a).
Proof.
  intros H1 H2 G Gs Gt N1 Mv rows cols. unfold rows, cols.
  destruct (matrix_inv base r c path s t H1 H2 G Gs Gt N1) as (v & a0 & d0 & a1 & d1 & E & HI & P & B & Q & R).
  rewrite <- Q, <- R, !pos_length. intros L3 L4 HL Mw Hap.
  assert (R0 : sz2_0 v <> 0) by (intros X; apply L3; rewrite X; reflexivity).
  assert (C0 : sz2_1 v <> 0) by (intros X; apply L4; rewrite X; reflexivity).
  assert (HC : (Z.of_nat (sz2_1 v) < H64)%Z) by nia.
  set (w := new2 nb (sz2_0 v) (sz2_1 v)).
  assert (HW : minv w 0 1 0 1 (Z.of_nat (sz2_0 v)) (Z.of_nat (sz2_1 v))) by (apply new2_inv; exact HC).
  assert (Hown : own2 m (data2 w)).
  { eapply own2_ok; eauto. intros p q Hp Hq. change (base2 w) with nb. rewrite <- (Z2Nat.id (p * Z.of_nat (sz2_1 v) + q)) by nia. apply Mw. nia. }
  assert (Hown' : own2 m (data2 v)).
  { eapply own2_ok; eauto. intros p q Hp Hq. rewrite B. rewrite <- (Z2Nat.id (p * Z.of_nat c + q)) by nia. apply Mv. nia. }
  assert (HAv := HI). destruct HAv as (_ & _ & _ & _ & _ & _ & _ & _ & HA & HB).
  assert (Aw : forall i j, i < sz2_0 v -> j < sz2_1 v -> at2 (data2 w) i j = (nb + (Z.of_nat i * Z.of_nat (sz2_1 v) + Z.of_nat j))%Z).
  { intros i j Hi Hj. rewrite (at2_ok w 0 1 0 1 _ _ i j HW HL eq_refl) by assumption. change (base2 w) with nb. lia. }
  destruct (copy2_ok Row2 Row2 (data2 w) (data2 v) m) as (m' & EC & A1 & A2).
  - exact Hown.
  - exact (proj1 Hown').
  - split; reflexivity.
  - intros i j i' j' Hi Hj Hi' Hj'. cbn [data2 n2_0 n2_1 w new2 sz2_0 sz2_1] in Hi, Hj, Hi', Hj'.
    rewrite (Aw i j Hi Hj), (at2_ok v a0 d0 a1 d1 _ _ i' j' HI H1 P Hi' Hj').
    specialize (HA (Z.of_nat i') ltac:(lia)). specialize (HB (Z.of_nat j') ltac:(lia)). rewrite B. nia.
  - cbn [data2 n2_0 w new2 sz2_0]. lia.
  - cbn [data2 n2_1 w new2 sz2_1]. lia.
  - discriminate.
  - exists v, w, m'. split; [exact E|]. split; [unfold copy_block2; fold w; unfold assign2; rewrite EC; reflexivity|].
    split; [reflexivity|]. split; [reflexivity|]. cbn [data2 n2_0 n2_1 w new2 sz2_0 sz2_1] in A1, A2. split.
    + intros i j p q Ep Eq. rewrite pos_nth in Ep, Eq.
      destruct (Nat.ltb_spec i (sz2_0 v)) as [Hi|]; [|discriminate]. destruct (Nat.ltb_spec j (sz2_1 v)) as [Hj|]; [|discriminate].
      injection Ep as <-. injection Eq as <-.
      destruct (A1 i j Hi Hj) as (x & Hx & Hx'). fold w in Hx'. rewrite (Aw i j Hi Hj) in Hx'.
      rewrite (at2_ok v a0 d0 a1 d1 _ _ i j HI H1 P Hi Hj), B in Hx.
      specialize (HA (Z.of_nat i) ltac:(lia)). specialize (HB (Z.of_nat j) ltac:(lia)).
      rewrite Nat2Z.inj_add, Nat2Z.inj_mul, !Z2Nat.id by lia. rewrite Hx.
      unfold get2. rewrite (index2_ok w 0 1 0 1 _ _ _ _ HW HL) by (cbn [w new2 sz2_0 sz2_1]; lia).
      cbn [bind w new2 part2 base2 cell]. unfold mload. rewrite <- Hx'. f_equal. lia.
    + intros a Ha. apply A2. intros i j Hi Hj. fold w. rewrite (Aw i j Hi Hj). intros ->. apply Ha. nia.
Qed.

(** A slice of the rows. *)
Lemma positions_from0 n : positions from0 n = seq 0 n.
Proof.
  unfold positions, bound, from0; cbn [s_start s_stop s_step]. change (0 <? 1)%Z with true. change (0 <? 0)%Z with false. cbn iota.
  transitivity (filter (fun _ => true) (seq 0 n)).
  - apply filter_ext_in. intros x Hx. apply in_seq in Hx. rewrite Z.mod_1_r.
    replace (limit 0 (Z.of_nat n) 0) with 0%Z by (unfold limit; lia).
    destruct (Z.leb_spec 0 (Z.of_nat x)); [|lia]. destruct (Z.ltb_spec (Z.of_nat x) (Z.of_nat n)); [|lia]. reflexivity.
  - generalize (seq 0 n). intros l; induction l as [|y l IH]; cbn; [reflexivity|f_equal; exact IH].
Qed.

Lemma rows_ok (base : Z) (r c : nat) (s : pyslice) :
  (Z.of_nat r * Z.of_nat c < H64)%Z -> (0 < Z.of_nat c < H64)%Z -> good_slice s ->
  let rows := items 0 (seq 0 r) s in
  exists v, matrix_view (new2 base r c) (Slice s) = Some (Mat v) /\ sz2_0 v = length rows /\ sz2_1 v = c /\
    (forall i j p, nth_error rows i = Some p -> j < c -> forall (m : mem V) (x : V),
       let a := (base + (Z.of_nat p * Z.of_nat c + Z.of_nat j))%Z in
       get2 v (Z.of_nat i) (Z.of_nat j) m = mload m a /\ put2 v (Z.of_nat i) (Z.of_nat j) x m = mstore m a x /\
       array2 v (Z.of_nat i) (Z.of_nat j) m = mload m a).
Proof.
  intros HMN HN Gs rows. unfold rows.
  destruct (matrix_ok base r c [] s from0 HMN (proj2 HN) (Forall_nil _) Gs) as (v & E & S0 & S1 & A & _).
  - unfold good_slice. discriminate.
  - cbn [map nested fold_left]. destruct c; [lia|discriminate].
  - cbn [app map nested fold_left subviews2] in *. unfold items in S1, A. rewrite positions_from0 in S1, A.
    rewrite map_length, seq_length, seq_length in S1.
    exists v. cbn [matrix_view]. destruct (subblock2 (new2 base r c) s from0) as [b'|]; cbn [bind] in *; [|discriminate].
    injection E as ->. split; [reflexivity|]. split; [exact S0|]. split; [exact S1|].
    intros i j p Ep Hj m x. apply A; [exact Ep|].
    rewrite seq_length. rewrite nth_error_map, nth_error_seq. destruct (Nat.ltb_spec j c); [|lia]. cbn [option_map].
    rewrite seq_nth by lia. reflexivity.
Qed.

(** Elements of complex vectors. *)
Lemma complex_ok (base : Z) (n : nat) (path : list pyslice) :
  (Z.of_nat n <= H64)%Z -> Forall good_slice path ->
  exists v, subviews1 (new1 base n) path = Some v /\
    (forall i p, nth_error (nested (seq 0 n) path) i = Some p -> forall (m : mem V) x y,
       m (base + 2 * Z.of_nat p)%Z = Some x -> m (base + 2 * Z.of_nat p + 1)%Z = Some y ->
       cget1 v (Z.of_nat i) m = Some (x, y)).
Proof.
  intros Hn HG.
  destruct (component_ok base n path [] true Hn HG (Forall_nil _)) as (v & w & E & Ew & _ & A).
  destruct (component_ok base n path [] false Hn HG (Forall_nil _)) as (v' & w' & E' & Ew' & _ & A').
  rewrite E in E'. injection E' as <-. cbn [subviews1] in Ew, Ew'. injection Ew as <-. injection Ew' as <-.
  rewrite app_nil_r in A, A'. exists v. split; [exact E|]. intros i p Ep m x y Hx Hy.
  destruct (A i p Ep m x) as [G _]. destruct (A' i p Ep m x) as [G' _]. cbv zeta in G, G'. rewrite Z.add_0_r in G.
  unfold cget1. rewrite G, G'. unfold mload. rewrite Hx. cbn [bind]. rewrite Hy. reflexivity.
Qed.
End Final.

(** ** Construction *)
Lemma vector_fill n z : (0 <= n)%Z -> z <> 0%Z ->
  py_vector n (Some (PFloat z)) = Some {| m_shape := [n]; m_init := Some z |}.
Proof.
  intros Hn Hz. unfold py_vector, py_block, truthy. destruct (Z.eqb_spec z 0); [contradiction|]. cbn [negb length andb Nat.leb map app].
  unfold mod_block, overloads. cbn [rev app first_match over_one over_init2 over_shape2 as_length bind].
  destruct (Z.leb_spec 0 n); [|lia]. cbn [bind over_init1 as_length as_number].
  destruct (Z.leb_spec 0 n); [|lia]. reflexivity.
Qed.
Lemma matrix_fill r c v : (0 <= r)%Z -> (0 <= c)%Z -> as_number v <> 0%Z ->
  py_matrix r c (Some v) = Some {| m_shape := [r; c]; m_init := Some (as_number v) |}.
Proof.
  intros Hr Hc Hv. unfold py_matrix, py_block. assert (T : truthy v = true) by (destruct v as [z|z]; cbn in *; destruct (Z.eqb_spec z 0); [contradiction|reflexivity|contradiction|reflexivity]).
  rewrite T.
  cbn [length andb Nat.leb map app]. unfold mod_block, overloads.
  cbn [rev app first_match over_one over_init2 as_length bind].
  destruct (Z.leb_spec 0 r); [|lia]. destruct (Z.leb_spec 0 c); [|lia]. reflexivity.
Qed.
Lemma shape_only r c : (0 <= r)%Z -> (0 <= c)%Z ->
  py_vector r None = Some {| m_shape := [r]; m_init := None |} /\
  py_matrix r c None = Some {| m_shape := [r; c]; m_init := None |}.
Proof.
  intros Hr Hc. unfold py_vector, py_matrix, py_block. cbn [length andb Nat.leb map app]. unfold mod_block, overloads.
  cbn [rev app first_match over_one over_init2 over_shape2 over_init1 as_length bind].
  destruct (Z.leb_spec 0 r); [|lia]. destruct (Z.leb_spec 0 c); [|lia]. split; reflexivity.
Qed.
