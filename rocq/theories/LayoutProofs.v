(** Lemmas about layouts. *)
From Coq Require Import ZArith List Lia Bool Arith.
From Verif Require Import Base Layout.
Import ListNotations.
Open Scope Z_scope.

Lemma pair_inj t i j i' j' : 0 <= j < t -> 0 <= j' < t ->
  i * t + j = i' * t + j' -> i = i' /\ j = j'.
Proof.
  intros H H' E.
  assert (Hi : i = i').
  { assert (D : (i * t + j) / t = (i' * t + j') / t) by (rewrite E; reflexivity).
    rewrite !Z.div_add_l in D by lia. rewrite !Z.div_small in D by lia. lia. }
  subst i'. split; [reflexivity|lia].
Qed.

Lemma pair_range m t i j : 0 <= i < m -> 0 <= j < t -> 0 <= i * t + j < m * t.
Proof.
  intros Hi Hj. assert (i * t <= (m - 1) * t) by (apply Z.mul_le_mono_nonneg_r; lia).
  assert (0 <= i * t) by (apply Z.mul_nonneg_nonneg; lia). lia.
Qed.

Lemma pair_split m t a : 0 <= a < m * t -> 0 < t ->
  0 <= a / t < m /\ 0 <= a mod t < t /\ a = (a / t) * t + a mod t.
Proof.
  intros H Ht. pose proof (Z.mod_pos_bound a t Ht). pose proof (Z.div_mod a t ltac:(lia)).
  repeat split; try lia.
  - apply Z.div_pos; lia.
  - apply Z.div_lt_upper_bound; lia.
Qed.

Lemma round_up_spec s A : 0 < A -> 0 <= s ->
  round_up s A mod A = 0 /\ s <= round_up s A < s + A.
Proof.
  intros HA Hs. unfold round_up. pose proof (Z.mod_pos_bound s A HA).
  destruct (Z.eqb_spec (s mod A) 0) as [E|E]; [lia|]. split; [|lia].
  replace (s + (A - s mod A)) with ((s / A + 1) * A).
  - apply Z.mod_mul; lia.
  - pose proof (Z.div_mod s A ltac:(lia)). rewrite Z.mul_add_distr_r, Z.mul_comm. lia.
Qed.

Lemma rt_pad_spec l elem s : 0 < elem -> 0 <= s -> 0 <= rt_alignment l ->
  (is_aligned (rt_packing l) = true -> rt_alignment l <> 0 -> rt_alignment l mod elem = 0) ->
  exists s', rt_pad l elem s = Some s' /\ s <= s' /\
    (is_aligned (rt_packing l) = true -> rt_alignment l <> 0 ->
       (s' * elem) mod rt_alignment l = 0 /\ (s' - s) * elem < rt_alignment l) /\
    (is_aligned (rt_packing l) = false \/ rt_alignment l = 0 -> s' = s).
Proof.
  intros He Hs Ha Hm. unfold rt_pad.
  destruct (is_aligned (rt_packing l)) eqn:Ea; simpl;
    [|exists s; repeat split; try lia; discriminate].
  destruct (Z.eqb_spec (rt_alignment l) 0) as [E0|E0]; simpl;
    [exists s; repeat split; try lia|].
  set (A := rt_alignment l) in *. specialize (Hm eq_refl E0).
  rewrite (Z.mul_comm elem s).
  destruct (Z.eqb_spec ((s * elem) mod A) 0) as [E|E]; simpl.
  { exists s. repeat split; try lia. }
  assert (HA : 0 < A) by lia.
  pose proof (Z.mod_pos_bound (s * elem) A HA) as Hb.
  pose proof (Z.div_mod (s * elem) A E0) as Hd.
  pose proof (Z.div_mod A elem ltac:(lia)) as HAe. rewrite Hm, Z.add_0_r in HAe.
  set (k := A / elem) in *. set (q := s * elem / A) in *.
  set (r := (s * elem) mod A) in *.
  assert (Er : A - r = elem * (k + k * q - s)) by (rewrite HAe in *; lia).
  assert (Hx : (A - r) mod elem = 0)
    by (rewrite Er, Z.mul_comm; apply Z.mod_mul; lia).
  assert (Hq : (A - r) / elem = k + k * q - s)
    by (rewrite Er, Z.mul_comm; apply Z.div_mul; lia).
  rewrite Hx, Hq. destruct (Z.ltb_spec 0 (A - r)); [simpl|lia].
  replace ((s + (k + k * q - s)) * elem) with ((q + 1) * A) by (rewrite HAe; ring).
  rewrite Z.mod_mul by lia. simpl.
  eexists; split; [reflexivity|]. 
  assert (0 <= k + k * q - s) by (apply (Z.mul_le_mono_pos_l _ _ elem); lia).
  split; [lia|]. split; [|lia].
  intros _ _. split; [exact Hx || (replace ((s + (k + k * q - s)) * elem) with ((q + 1) * A) by (rewrite HAe; ring); apply Z.mod_mul; lia)|].
  replace ((s + (k + k * q - s) - s) * elem) with (elem * (k + k * q - s)) by ring. lia.
Qed.

Lemma inb_iff size : forall i, inb size i = true <-> in_range size i.
Proof.
  unfold in_range. induction size as [|n s IH]; intros [|x i]; simpl; split; intros H;
    try discriminate; try (inversion H; fail); auto.
  - apply andb_prop in H as [H1 H2]. constructor; [lia|]. apply IH; exact H2.
  - inversion H; subst. apply IH in H5. rewrite H5.
    destruct (Z.leb_spec 0 x), (Z.ltb_spec x n); simpl; lia || reflexivity.
Qed.

Lemma in_range_length ext i : in_range ext i -> length i = length ext.
Proof. intros H. induction H; simpl; congruence. Qed.

Ltac inr H :=
  let L := fresh "L" in
  pose proof (in_range_length _ _ H) as L; cbn [length] in L;
  repeat match type of L with
  | length ?i = S _ => destruct i as [|? i]; [discriminate L|]; cbn [length] in L; injection L as L
  | length ?i = 0%nat => destruct i; [|discriminate L]; clear L
  end;
  let H' := fresh "R" in
  pose proof H as H'; unfold in_range in H';
  repeat match goal with
  | X : Forall2 _ (_ :: _) (_ :: _) |- _ => inversion X; subst; clear X
  | X : Forall2 _ [] [] |- _ => clear X
  end;
  apply inb_iff in H.

(** ** The dot-product law (C08) *)
Lemma dot_lemma3 o s t i : order_valid 3 o = true -> length s = 3%nat -> length t = 3%nat ->
  in_range s i ->
  at_ i (dim_ o 0) * at_ t (dim_ o 0) + at_ i (dim_ o 1) * at_ t (dim_ o 1)
  + at_ i (dim_ o 2) * at_ t (dim_ o 2) = dot_strides (at_ t) 0 i.
Proof.
  intros Ho Hs Ht Hi. pose proof (in_range_length _ _ Hi) as L. rewrite Hs in L.
  destruct i as [|a [|b [|c [|? ?]]]]; try discriminate L.
  destruct o as [|[|[|[|]]] [|[|[|[|]]] [|[|[|[|]]] [|]]]]; try discriminate Ho;
    unfold dim_; simpl; unfold at_ at 1 3 5; simpl; ring.
Qed.

Lemma own3 n1 n2 T x y z x' y' z' :
  0 <= y < n1 -> 0 <= y' < n1 -> 0 <= z < n2 -> 0 <= z' < n2 -> n2 <= T ->
  x * (n1 * T) + y * T + z = x' * (n1 * T) + y' * T + z' -> x = x' /\ y = y' /\ z = z'.
Proof.
  intros Hy Hy' Hz Hz' HT E.
  assert (E' : (x * n1 + y) * T + z = (x' * n1 + y') * T + z') by lia.
  apply pair_inj in E' as [E1 E2]; try lia. apply pair_inj in E1 as [E3 E4]; lia.
Qed.

Lemma range3 n0 n1 n2 T x y z :
  0 <= x < n0 -> 0 <= y < n1 -> 0 <= z < n2 -> n2 <= T ->
  0 <= x * (n1 * T) + y * T + z < n0 * (n1 * T).
Proof.
  intros Hx Hy Hz HT.
  replace (x * (n1 * T) + y * T + z) with ((x * n1 + y) * T + z) by ring.
  rewrite Z.mul_assoc. apply pair_range; [|lia]. apply pair_range; lia.
Qed.

(** Offsets of a layout whose strides are those of a (padded) row of the
    order [o]. *)
Definition canonical (o : order) (ext st : list Z) : Prop :=
  match ext with
  | [_] => length st = 1%nat /\ at_ st 0 = 1
  | [_;_] => length st = 2%nat /\ at_ st (dim_ o 1) = 1 /\ at_ ext (dim_ o 1) <= at_ st (dim_ o 0)
  | [_;_;_] => length st = 3%nat /\ at_ st (dim_ o 2) = 1 /\
      at_ ext (dim_ o 2) <= at_ st (dim_ o 1) /\
      at_ st (dim_ o 0) = at_ ext (dim_ o 1) * at_ st (dim_ o 1)
  | _ => False
  end.

Lemma order_cases D o : order_valid D o = true ->
  (D = 1%nat /\ o = [0%nat]) \/ (D = 2%nat /\ (o = [0;1]%nat \/ o = [1;0]%nat)) \/
  (D = 3%nat /\ (o = [0;1;2]%nat \/ o = [0;2;1]%nat \/ o = [1;0;2]%nat \/ o = [1;2;0]%nat
                \/ o = [2;0;1]%nat \/ o = [2;1;0]%nat)).
Proof.
  intros H. destruct D as [|[|[|[|]]]]; try discriminate H;
  destruct o as [|[|[|[|]]] [|[|[|[|]]] [|[|[|[|]]] [|]]]]; try discriminate H; tauto.
Qed.

Ltac orders H :=
  apply order_cases in H; cbn [length] in H;
  repeat match type of H with _ \/ _ => destruct H as [H|H] end;
  destruct H as [? H]; try discriminate;
  repeat match type of H with _ \/ _ => destruct H as [H|H] end; subst.

Ltac lists :=
  repeat match goal with
  | H : length ?l = S _ |- _ => destruct l as [|? l]; [discriminate H|]; cbn [length] in H; injection H as H
  | H : length ?l = 0%nat |- _ => destruct l; [|discriminate H]; clear H
  end.


Ltac inr1 H x :=
  let L := fresh "L" in pose proof (in_range_length _ _ H) as L;
  match type of L with length ?i = _ =>
    destruct i as [|x [|? ?]]; try discriminate L; clear L end.
Ltac inr2 H x y :=
  let L := fresh "L" in pose proof (in_range_length _ _ H) as L;
  match type of L with length ?i = _ =>
    destruct i as [|x [|y [|? ?]]]; try discriminate L; clear L end.
Ltac inr3 H x y z :=
  let L := fresh "L" in pose proof (in_range_length _ _ H) as L;
  match type of L with length ?i = _ =>
    destruct i as [|x [|y [|z [|? ?]]]]; try discriminate L; clear L end.
Ltac rng H := unfold in_range in H;
  repeat match goal with
  | X : Forall2 _ (_ :: _) (_ :: _) |- _ => inversion X; subst; clear X
  | X : Forall2 _ [] [] |- _ => clear X
  end.
Ltac canon1 C st t0 :=
  cbn [canonical] in C; destruct C as (Lt & C);
  destruct st as [|t0 [|? ?]]; try discriminate Lt; clear Lt;
  unfold dim_, at_ in *; cbn [nth dot_strides] in *.
Ltac canon2 C st t0 t1 :=
  cbn [canonical] in C; destruct C as (Lt & C & C2);
  destruct st as [|t0 [|t1 [|? ?]]]; try discriminate Lt; clear Lt;
  unfold dim_, at_ in *; cbn [nth dot_strides] in *; subst.
Ltac canon3 C st t0 t1 t2 :=
  cbn [canonical] in C; destruct C as (Lt & C & C2 & C3);
  destruct st as [|t0 [|t1 [|t2 [|? ?]]]]; try discriminate Lt; clear Lt;
  unfold dim_, at_ in *; cbn [nth dot_strides] in *; subst.

Lemma canonical_inj o ext st i j :
  order_valid (length ext) o = true -> canonical o ext st ->
  in_range ext i -> in_range ext j ->
  dot_strides (at_ st) 0 i = dot_strides (at_ st) 0 j -> i = j.
Proof.
  intros Ho C Hi Hj E.
  destruct ext as [|a [|b [|c [|? ?]]]]; try contradiction.
  - orders Ho. inr1 Hi x. inr1 Hj x'. canon1 C st t0. subst. rng Hi; rng Hj. f_equal; lia.
  - inr2 Hi x y. inr2 Hj x' y'. orders Ho; canon2 C st t0 t1; rng Hi; rng Hj.
    + destruct (pair_inj t0 x y x' y') as [-> ->]; [lia..|reflexivity].
    + destruct (pair_inj t1 y x y' x') as [-> ->]; [lia..|reflexivity].
  - inr3 Hi x y z. inr3 Hj x' y' z'. orders Ho; canon3 C st t0 t1 t2; rng Hi; rng Hj.
    + destruct (own3 b c t1 x y z x' y' z') as (-> & -> & ->); [lia..|reflexivity].
    + destruct (own3 c b t2 x z y x' z' y') as (-> & -> & ->); [lia..|reflexivity].
    + destruct (own3 a c t0 y x z y' x' z') as (-> & -> & ->); [lia..|reflexivity].
    + destruct (own3 c a t2 y z x y' z' x') as (-> & -> & ->); [lia..|reflexivity].
    + destruct (own3 a b t0 z x y z' x' y') as (-> & -> & ->); [lia..|reflexivity].
    + destruct (own3 b a t1 z y x z' y' x') as (-> & -> & ->); [lia..|reflexivity].
Qed.

(** Offsets stay below (slowest size) * (slowest stride) and, sharper in
    two dimensions, below the last line's end. *)
Lemma canonical_range o ext st i :
  order_valid (length ext) o = true -> canonical o ext st -> in_range ext i ->
  0 <= dot_strides (at_ st) 0 i < at_ ext (dim_ o 0) * at_ st (dim_ o 0).
Proof.
  intros Ho C Hi.
  destruct ext as [|a [|b [|c [|? ?]]]]; try contradiction.
  - orders Ho. inr1 Hi x. canon1 C st t0. subst. rng Hi. lia.
  - inr2 Hi x y. orders Ho; canon2 C st t0 t1; rng Hi.
    + pose proof (pair_range a t0 x y). lia.
    + pose proof (pair_range b t1 y x). lia.
  - inr3 Hi x y z. orders Ho; canon3 C st t0 t1 t2; rng Hi.
    + pose proof (range3 a b c t1 x y z). lia.
    + pose proof (range3 a c b t2 x z y). lia.
    + pose proof (range3 b a c t0 y x z). lia.
    + pose proof (range3 b c a t2 y z x). lia.
    + pose proof (range3 c a b t0 z x y). lia.
    + pose proof (range3 c b a t1 z y x). lia.
Qed.

(** Without padding every cell is reached. *)
Definition tight (o : order) (ext st : list Z) : Prop :=
  match ext with
  | [_;_] => at_ ext (dim_ o 1) = at_ st (dim_ o 0)
  | [_;_;_] => at_ ext (dim_ o 2) = at_ st (dim_ o 1)
  | _ => True
  end.

Lemma split3 n0 n1 n2 a : 0 <= a < n0 * (n1 * n2) -> 0 <= n1 -> 0 <= n2 ->
  exists x y z, 0 <= x < n0 /\ 0 <= y < n1 /\ 0 <= z < n2 /\
    a = x * (n1 * n2) + y * n2 + z.
Proof.
  intros H H1 H2. assert (n1 <> 0) by (intros ->; lia).
  assert (n2 <> 0) by (intros ->; lia).
  rewrite Z.mul_assoc in H.
  destruct (pair_split (n0 * n1) n2 a H ltac:(lia)) as (Ha & Hb & E).
  destruct (pair_split n0 n1 (a / n2) Ha ltac:(lia)) as (Hc & Hd & E').
  exists (a / n2 / n1), ((a / n2) mod n1), (a mod n2). repeat split; try lia.
Qed.

Lemma split2 n0 n1 a : 0 <= a < n0 * n1 -> 0 <= n1 ->
  exists x y, 0 <= x < n0 /\ 0 <= y < n1 /\ a = x * n1 + y.
Proof.
  intros H H1. assert (n1 <> 0) by (intros ->; lia).
  destruct (pair_split n0 n1 a H ltac:(lia)) as (Ha & Hb & E). eauto 6.
Qed.

Lemma canonical_onto o ext st a :
  order_valid (length ext) o = true -> canonical o ext st -> tight o ext st ->
  Forall (fun n => 0 <= n) ext ->
  0 <= a < at_ ext (dim_ o 0) * at_ st (dim_ o 0) ->
  exists i, in_range ext i /\ dot_strides (at_ st) 0 i = a.
Proof.
  intros Ho C T F Ha.
  destruct ext as [|n0 [|n1 [|n2 [|? ?]]]]; try contradiction;
    repeat match goal with X : Forall _ (_ :: _) |- _ => inversion X; subst; clear X end.
  - orders Ho. canon1 C st t0. subst. exists [a]. split; [repeat constructor; lia|simpl; lia].
  - orders Ho; canon2 C st t0 t1; unfold tight, at_, dim_ in T; cbn [nth] in T; try rewrite <- T in *.
    + destruct (split2 n0 n1 a) as (x & y & ? & ? & ->); try lia.
      exists [x; y]. split; [repeat constructor; lia|simpl; ring].
    + destruct (split2 n1 n0 a) as (x & y & ? & ? & ->); try lia.
      exists [y; x]. split; [repeat constructor; lia|simpl; ring].
  - orders Ho; canon3 C st t0 t1 t2; unfold tight, at_, dim_ in T; cbn [nth] in T; try rewrite <- T in *.
    + destruct (split3 n0 n1 n2 a) as (x & y & z & ? & ? & ? & ->); try lia.
      exists [x; y; z]. split; [repeat constructor; lia|simpl; ring].
    + destruct (split3 n0 n2 n1 a) as (x & y & z & ? & ? & ? & ->); try lia.
      exists [x; z; y]. split; [repeat constructor; lia|simpl; ring].
    + destruct (split3 n1 n0 n2 a) as (x & y & z & ? & ? & ? & ->); try lia.
      exists [y; x; z]. split; [repeat constructor; lia|simpl; ring].
    + destruct (split3 n1 n2 n0 a) as (x & y & z & ? & ? & ? & ->); try lia.
      exists [z; x; y]. split; [repeat constructor; lia|simpl; ring].
    + destruct (split3 n2 n0 n1 a) as (x & y & z & ? & ? & ? & ->); try lia.
      exists [y; z; x]. split; [repeat constructor; lia|simpl; ring].
    + destruct (split3 n2 n1 n0 a) as (x & y & z & ? & ? & ? & ->); try lia.
      exists [z; y; x]. split; [repeat constructor; lia|simpl; ring].
Qed.

(** ** The concrete layouts *)
Definition strides (l : applied) (D : nat) : list Z := map (stride l) (seq 0 D).

Lemma dot_strides_list l D i : length i = D -> (D <= 3)%nat ->
  dot_strides (at_ (strides l D)) 0 i = dot_strides (stride l) 0 i.
Proof.
  intros <- H. destruct i as [|x [|y [|z [|? ?]]]]; try reflexivity. simpl in H; lia.
Qed.

Lemma make_layout_length o p ext l : make_layout o p ext = Some l ->
  order_valid (length ext) o = true /\ (1 <= length ext <= 3)%nat.
Proof.
  unfold make_layout. destruct (order_valid (length ext) o) eqn:E; [|discriminate].
  intros _. split; [reflexivity|]. apply order_cases in E. lia.
Qed.

Definition pos_ext (ext : list Z) := Forall (fun n => 0 <= n) ext.

Lemma enum_pos A : is_aligned_enum A = true -> 0 < A.
Proof.
  unfold is_aligned_enum. intros H. apply existsb_exists in H as (x & I & E).
  apply Z.eqb_eq in E. subst x. simpl in I. lia.
Qed.

Ltac mk H :=
  unfold make_layout in H;
  match type of H with context[order_valid ?d ?o] =>
    let Ho := fresh "Ho" in destruct (order_valid d o) eqn:Ho; [|discriminate H] end;
  cbn [negb] in H.

Ltac mk' H Ho := unfold make_layout in H; rewrite Ho in H; cbn [negb] in H.

Lemma make_layout_canonical o p ext l : pos_ext ext -> make_layout o p ext = Some l ->
  canonical o ext (strides l (length ext)).
Proof.
  intros F H. mk H. unfold strides.
  destruct ext as [|a [|b [|c [|? ?]]]]; try discriminate Ho;
    repeat match goal with X : pos_ext (_ :: _) |- _ => unfold pos_ext in X end;
    repeat match goal with X : Forall _ (_ :: _) |- _ => inversion X; subst; clear X end.
  - destruct p; try destruct ((A =? p_aligned) || is_aligned_enum A); inversion H; subst; simpl; auto.
  - destruct p; try discriminate H.
    + orders Ho; unfold dim_ in *; simpl in *; inversion H; subst; simpl;
        unfold at_, dim_; simpl; repeat split; lia.
    + destruct (is_aligned_enum A) eqn:EA; [|discriminate H]. apply enum_pos in EA.
      pose proof (round_up_spec a A EA ltac:(lia)). pose proof (round_up_spec b A EA ltac:(lia)).
      orders Ho; unfold dim_ in *; simpl in *; inversion H; subst; simpl;
        unfold at_, dim_; simpl; repeat split; lia.
  - destruct p; try discriminate H.
    + inversion H; subst. orders Ho; simpl; unfold at_, dim_; simpl; repeat split; lia.
    + destruct (is_aligned_enum A) eqn:EA; [|discriminate H]. apply enum_pos in EA.
      inversion H; subst.
      pose proof (round_up_spec a A EA ltac:(lia)). pose proof (round_up_spec b A EA ltac:(lia)).
      pose proof (round_up_spec c A EA ltac:(lia)).
      orders Ho; unfold strides3A; simpl; unfold at_, dim_; simpl; repeat split; lia.
Qed.

Lemma make_layout_index o p ext l i : make_layout o p ext = Some l -> in_range ext i ->
  index l i = Some (dot_strides (stride l) 0 i).
Proof.
  intros H Hi. pose proof (proj2 (inb_iff _ _) Hi) as Hb. mk H.
  destruct ext as [|a [|b [|c [|? ?]]]]; try discriminate Ho.
  - inr1 Hi x.
    destruct p; try destruct ((A =? p_aligned) || is_aligned_enum A); inversion H; subst;
      cbn [index]; rewrite Hb; unfold at_; simpl; f_equal; lia.
  - inr2 Hi x y.
    destruct p; try discriminate H.
    + orders Ho; unfold dim_ in *; simpl in H; inversion H; subst; cbn [index];
        rewrite Hb; unfold at_; simpl; f_equal; ring.
    + destruct (is_aligned_enum A) eqn:EA; [|discriminate H].
      orders Ho; unfold dim_ in *; simpl in H; inversion H; subst; cbn [index];
        rewrite Hb; unfold at_; simpl; f_equal; ring.
  - inr3 Hi x y z.
    destruct p; try discriminate H.
    + inversion H; subst. cbn [index]; rewrite Hb.
      orders Ho; unfold at_, dim_; simpl; f_equal; unfold at_; simpl; ring.
    + destruct (is_aligned_enum A) eqn:EA; [|discriminate H].
      inversion H; subst. cbn [index]; rewrite Hb.
      orders Ho; unfold strides3A, at_, dim_; simpl; f_equal; unfold at_; simpl; ring.
Qed.

Lemma u64_id z : 0 <= z < W64 -> u64 z = z.
Proof. intros. unfold u64. apply Z.mod_small. exact H. Qed.

Lemma make_layout_total o p ext l i : pos_ext ext -> make_layout o p ext = Some l -> fits l ext ->
  in_range ext i -> 0 <= dot_strides (stride l) 0 i < total_size l.
Proof.
  intros F H Hf Hi. pose proof (make_layout_canonical _ _ _ _ F H) as C.
  pose proof (make_layout_length _ _ _ _ H) as (Ho' & Hlen).
  pose proof (canonical_range _ _ _ _ Ho' C Hi) as R.
  rewrite dot_strides_list in R by (try (apply in_range_length; exact Hi); lia).
  split; [lia|]. destruct R as [_ R]. 
  mk H.
  destruct ext as [|a [|b [|c [|? ?]]]]; try discriminate Ho.
  - destruct p; try destruct ((A =? p_aligned) || is_aligned_enum A); inversion H; subst;
      orders Ho; unfold strides, at_, dim_ in *; simpl in *; lia.
  - destruct p; try discriminate H.
    + orders Ho; unfold dim_ in *; simpl in H; inversion H; subst;
        unfold strides, at_, dim_ in *; simpl in *; lia.
    + destruct (is_aligned_enum A) eqn:EA; [|discriminate H]. apply enum_pos in EA.
      inr2 Hi x y. unfold pos_ext in F.
      repeat match goal with X : Forall _ (_ :: _) |- _ => inversion X; subst; clear X end.
      pose proof (round_up_spec a A EA ltac:(lia)). pose proof (round_up_spec b A EA ltac:(lia)).
      pose proof (Hf 0%nat ltac:(simpl; lia)) as Hf0.
      pose proof (Hf 1%nat ltac:(simpl; lia)) as Hf1.
      rng Hi.
      orders Ho; unfold dim_ in *; simpl in H; inversion H; subst;
        unfold strides, at_, dim_ in *; simpl in *.
      * set (t := round_up b A) in *.
        assert (x * t <= (a - 1) * t) by (apply Z.mul_le_mono_nonneg_r; lia).
        assert (0 <= (a - 1) * t) by (apply Z.mul_nonneg_nonneg; lia).
        rewrite u64_id by lia. lia.
      * set (t := round_up a A) in *.
        assert (y * t <= (b - 1) * t) by (apply Z.mul_le_mono_nonneg_r; lia).
        assert (0 <= (b - 1) * t) by (apply Z.mul_nonneg_nonneg; lia).
        rewrite u64_id by lia. lia.
  - destruct p; try discriminate H.
    + inversion H; subst. orders Ho; unfold strides, at_, dim_ in *; simpl in *; unfold at_ in *; simpl in *; lia.
    + destruct (is_aligned_enum A) eqn:EA; [|discriminate H]. inversion H; subst. 
      orders Ho; unfold strides, at_, dim_ in *; simpl in *; unfold at_ in *; simpl in *; lia.
Qed.

Lemma make_layout_own o p ext l : pos_ext ext -> make_layout o p ext = Some l -> fits l ext ->
  own_cells l ext.
Proof.
  intros F H Hf. pose proof (make_layout_length _ _ _ _ H) as (Ho & Hlen).
  split.
  - intros i Hi. exists (dot_strides (stride l) 0 i). split.
    + eapply make_layout_index; eauto.
    + eapply make_layout_total; eauto.
  - intros i j Hi Hj E. rewrite (make_layout_index _ _ _ _ _ H Hi), (make_layout_index _ _ _ _ _ H Hj) in E.
    injection E as E. eapply canonical_inj; eauto.
    + eapply make_layout_canonical; eauto.
    + rewrite !dot_strides_list; try (apply in_range_length; assumption); lia.
Qed.

Lemma make_layout_dense_onto o ext l : pos_ext ext -> make_layout o P_dense ext = Some l ->
  all_cells_used l ext /\ total_size l = fold_right Z.mul 1 ext.
Proof.
  intros F H. pose proof (make_layout_length _ _ _ _ H) as (Ho & Hlen).
  pose proof (make_layout_canonical _ _ _ _ F H) as C.
  assert (T : tight o ext (strides l (length ext)) /\
    total_size l = at_ ext (dim_ o 0) * at_ (strides l (length ext)) (dim_ o 0) /\
    total_size l = fold_right Z.mul 1 ext).
  { pose proof H as H'. mk' H' Ho. destruct ext as [|a [|b [|c [|? ?]]]]; try discriminate Ho;
      orders Ho; unfold dim_ in H'; simpl in H'; inversion H'; subst; simpl;
      unfold at_, dim_; simpl; unfold at_, dim_; simpl; repeat split; try ring; lia. }
  destruct T as (T & E & E'). split; [|exact E'].
  intros a Ha. rewrite E in Ha.
  destruct (canonical_onto o ext _ a Ho C T F Ha) as (i & Hi & Ei).
  exists i. split; [exact Hi|]. rewrite (make_layout_index _ _ _ _ _ H Hi).
  rewrite dot_strides_list in Ei; try (apply in_range_length; assumption); try lia. congruence.
Qed.

(** ** Alignment of the compile-time layouts (C07) *)
Lemma mult_mod_dot k A : 0 < A -> (k * A) mod A = 0.
Proof. intros. apply Z.mod_mul. lia. Qed.

Lemma make_layout_aligned o A ext l : pos_ext ext -> is_aligned_enum A = true ->
  make_layout o (P_aligned A) ext = Some l ->
  (forall i a, in_range ext i -> at_ i (fast o) = 0 -> index l i = Some a -> a mod A = 0) /\
  ((2 <= length ext)%nat -> at_ ext (fast o) <= stride l (slower o) < at_ ext (fast o) + A).
Proof.
  intros F EA H. pose proof (enum_pos _ EA) as HA.
  pose proof (make_layout_length _ _ _ _ H) as (Ho & Hlen).
  split.
  - intros i a Hi Hz Ea. rewrite (make_layout_index _ _ _ _ _ H Hi) in Ea. injection Ea as <-.
    pose proof H as H'. mk' H' Ho. rewrite EA, ?orb_true_r in H'.
    destruct ext as [|n0 [|n1 [|n2 [|? ?]]]]; try discriminate Ho;
    unfold pos_ext in F;
    repeat match goal with X : Forall _ (_ :: _) |- _ => inversion X; subst; clear X end.
    + inr1 Hi x. orders Ho. unfold fast, at_ in Hz; simpl in Hz. subst. simpl.
      apply Z.mod_0_l; lia.
    + pose proof (round_up_spec n0 A HA ltac:(lia)) as [R0 _].
      pose proof (round_up_spec n1 A HA ltac:(lia)) as [R1 _].
      inr2 Hi x y.
      orders Ho; unfold fast, at_, dim_ in *; simpl in H', Hz; inversion H'; subst; simpl.
      * rewrite !Z.add_0_r, Z.mul_mod, R1, Z.mul_0_r by lia. apply Z.mod_0_l; lia.
      * rewrite !Z.add_0_r, Z.mul_mod, R0, Z.mul_0_r by lia. apply Z.mod_0_l; lia.
    + pose proof (round_up_spec n0 A HA ltac:(lia)) as [R0 _].
      pose proof (round_up_spec n1 A HA ltac:(lia)) as [R1 _].
      pose proof (round_up_spec n2 A HA ltac:(lia)) as [R2 _].
      assert (G : forall t u v w, t mod A = 0 -> u * (v * t) + w * t = (u * v + w) * t) by (intros; ring).
      assert (G' : forall t u, t mod A = 0 -> (u * t) mod A = 0)
        by (intros t u E; rewrite Z.mul_mod, E, Z.mul_0_r by lia; apply Z.mod_0_l; lia).
      inr3 Hi x y z. inversion H'; subst.
      orders Ho; unfold fast, strides3A, at_, dim_ in *; simpl in Hz; subst; simpl; unfold at_; simpl;
        match goal with |- ?e mod A = 0 =>
          first [ replace e with ((x * n1 + y) * round_up n2 A) by ring; apply G'; assumption
                | replace e with ((x * n2 + z) * round_up n1 A) by ring; apply G'; assumption
                | replace e with ((y * n0 + x) * round_up n2 A) by ring; apply G'; assumption
                | replace e with ((y * n2 + z) * round_up n0 A) by ring; apply G'; assumption
                | replace e with ((z * n0 + x) * round_up n1 A) by ring; apply G'; assumption
                | replace e with ((z * n1 + y) * round_up n0 A) by ring; apply G'; assumption ] end.
  - intros H2. mk' H Ho. rewrite EA, ?orb_true_r in H.
    destruct ext as [|n0 [|n1 [|n2 [|? ?]]]]; try discriminate Ho;
    unfold pos_ext in F;
    repeat match goal with X : Forall _ (_ :: _) |- _ => inversion X; subst; clear X end.
    + simpl in H2; lia.
    + pose proof (round_up_spec n0 A HA ltac:(lia)) as [_ R0].
      pose proof (round_up_spec n1 A HA ltac:(lia)) as [_ R1].
      orders Ho; unfold fast, slower, at_, dim_ in *; simpl in H; inversion H; subst; simpl; lia.
    + pose proof (round_up_spec n0 A HA ltac:(lia)) as [_ R0].
      pose proof (round_up_spec n1 A HA ltac:(lia)) as [_ R1].
      pose proof (round_up_spec n2 A HA ltac:(lia)) as [_ R2].
      inversion H; subst.
      orders Ho; unfold fast, slower, strides3A, at_, dim_ in *; simpl; unfold at_; simpl; lia.
Qed.

(** ** Run-time layouts *)
Definition rt_ok (l : rt_layout) (elem : Z) : Prop :=
  0 <= rt_alignment l /\
  (is_aligned (rt_packing l) = true -> rt_alignment l <> 0 -> rt_alignment l mod elem = 0).

Lemma make_rt_some l ext elem :
  order_valid (length ext) (rt_order l) = true -> pos_ext ext -> 0 < elem -> rt_ok l elem ->
  exists st, make_rt l ext elem = Some (ART (rt_order l) ext st) /\
    canonical (rt_order l) ext st /\
    (is_aligned (rt_packing l) = false \/ rt_alignment l = 0 -> tight (rt_order l) ext st) /\
    ((2 <= length ext)%nat -> is_aligned (rt_packing l) = true -> rt_alignment l <> 0 ->
      (at_ st (slower (rt_order l)) * elem) mod rt_alignment l = 0 /\
      (at_ st (slower (rt_order l)) - at_ ext (fast (rt_order l))) * elem < rt_alignment l).
Proof.
  intros Ho F He (Ha & Hm). unfold make_rt.
  assert (Hp := fun s Hs => rt_pad_spec l elem s He Hs Ha Hm).
  destruct l as [pk o al]; cbn [rt_order rt_packing rt_alignment] in *.
  destruct (Z.eqb_spec elem 0); [lia|]. cbn [negb].
  assert (P : (negb (is_aligned pk) || (al =? 0) || (al mod elem =? 0)) = true).
  { destruct (is_aligned pk); [|reflexivity]. simpl.
    destruct (Z.eqb_spec al 0); [reflexivity|]. simpl. rewrite Hm; auto. }
  rewrite P. clear P.
  destruct ext as [|n0 [|n1 [|n2 [|? ?]]]]; try discriminate Ho; cbn [length];
    unfold pos_ext in F;
    repeat match goal with X : Forall _ (_ :: _) |- _ => inversion X; subst; clear X end.
  - exists [1]. repeat split; simpl; auto; lia.
  - assert (Hx : 0 <= at_ [n0;n1] (dim_ o 1)).
    { orders Ho; unfold at_, dim_; simpl; lia. }
    destruct (Hp _ Hx) as (t & -> & Ht & Hal & Hna). cbn [bind].
    eexists; split; [reflexivity|].
    orders Ho; unfold fast, slower, tight, at_, dim_ in *; simpl in *; unfold at_ in *; simpl;
      (split; [repeat split; lia|]; split; [intros q; specialize (Hna q); lia| intros _; exact Hal]).
  - assert (Hx : 0 <= at_ [n0;n1;n2] (dim_ o 2)).
    { orders Ho; unfold at_, dim_; simpl; lia. }
    destruct (Hp _ Hx) as (t & -> & Ht & Hal & Hna). cbn [bind].
    eexists; split; [reflexivity|].
    orders Ho; unfold fast, slower, tight, at_, dim_ in *; simpl in *; unfold at_ in *; simpl;
      (split; [repeat split; lia|]; split; [intros q; specialize (Hna q); lia| intros _; exact Hal]).
Qed.

Lemma rt_index o ext st i : order_valid (length ext) o = true -> length st = length ext ->
  in_range ext i -> index (ART o ext st) i = Some (dot_strides (at_ st) 0 i).
Proof.
  intros Ho Ls Hi. pose proof (proj2 (inb_iff _ _) Hi) as Hb. cbn [index]. rewrite Hb.
  destruct ext as [|a [|b [|c [|? ?]]]]; try discriminate Ho; cbn [length] in *.
  - inr1 Hi x. orders Ho. unfold at_, dim_; simpl. f_equal; lia.
  - inr2 Hi x y. orders Ho; unfold at_, dim_; simpl; f_equal; ring.
  - inr3 Hi x y z. orders Ho; unfold at_, dim_; simpl; f_equal; ring.
Qed.

Lemma canonical_length o ext st : canonical o ext st -> length st = length ext.
Proof. destruct ext as [|a [|b [|c [|? ?]]]]; simpl; tauto. Qed.

Lemma make_rt_own l ext elem :
  order_valid (length ext) (rt_order l) = true -> pos_ext ext -> 0 < elem -> rt_ok l elem ->
  exists a, make_rt l ext elem = Some a /\ own_cells a ext /\
    (is_aligned (rt_packing l) = false \/ rt_alignment l = 0 ->
       all_cells_used a ext /\ total_size a = fold_right Z.mul 1 ext).
Proof.
  intros Ho F He Hr. destruct (make_rt_some l ext elem Ho F He Hr) as (st & E & C & T & _).
  pose proof (canonical_length _ _ _ C) as Ls.
  exists (ART (rt_order l) ext st). split; [exact E|]. split; [split|].
  - intros i Hi. exists (dot_strides (at_ st) 0 i). split; [apply rt_index; auto|].
    cbn [total_size]. apply canonical_range; auto.
  - intros i j Hi Hj Eij. rewrite !rt_index in Eij by auto. injection Eij as Eij.
    eapply canonical_inj; eauto.
  - intros Hn. specialize (T Hn). split.
    + intros a Ha. cbn [total_size] in Ha.
      destruct (canonical_onto _ _ _ _ Ho C T F Ha) as (i & Hi & Ei).
      exists i. split; [exact Hi|]. rewrite rt_index by auto. congruence.
    + cbn [total_size].
      destruct l as [pk o al]; cbn [rt_order rt_packing rt_alignment] in *. clear - Ho C T.
      destruct ext as [|a [|b [|c [|? ?]]]]; try discriminate Ho.
      * orders Ho. canon1 C st t0. subst. simpl; ring.
      * orders Ho; canon2 C st t0 t1; unfold tight, at_, dim_ in *; simpl in *; rewrite <- T; ring.
      * orders Ho; canon3 C st t0 t1 t2; unfold tight, at_, dim_ in *; simpl in *; rewrite <- T; ring.
Qed.

Lemma make_rt_aligned l ext elem a i off :
  order_valid (length ext) (rt_order l) = true -> pos_ext ext -> 0 < elem -> rt_ok l elem ->
  is_aligned (rt_packing l) = true -> rt_alignment l <> 0 ->
  make_rt l ext elem = Some a -> in_range ext i -> at_ i (fast (rt_order l)) = 0 ->
  index a i = Some off ->
  (off * elem) mod rt_alignment l = 0.
Proof.
  intros Ho F He Hr Hal Hnz E Hi Hz Eo.
  destruct (make_rt_some l ext elem Ho F He Hr) as (st & E' & C & _ & B).
  rewrite E in E'. injection E' as ->.
  pose proof (canonical_length _ _ _ C) as Ls.
  rewrite rt_index in Eo by auto. injection Eo as <-.
  assert (HA : 0 < rt_alignment l) by (destruct Hr; lia). set (A := rt_alignment l) in *.
  destruct l as [pk o al]; cbn [rt_order rt_packing rt_alignment] in *. clear E.
  destruct ext as [|n0 [|n1 [|n2 [|? ?]]]]; try discriminate Ho.
  - inr1 Hi x. orders Ho. unfold fast, at_ in Hz; simpl in Hz. subst. simpl. apply Z.mod_0_l; lia.
  - destruct (B ltac:(simpl; lia) Hal Hnz) as [B1 _]. clear B. inr2 Hi x y.
    assert (G' : forall u v, (v * elem) mod A = 0 -> (u * v * elem) mod A = 0)
        by (intros u v Q; rewrite <- Z.mul_assoc, Z.mul_mod, Q, Z.mul_0_r by lia; apply Z.mod_0_l; lia).
    orders Ho; canon2 C st t0 t1; unfold fast, slower, dim_ in *; simpl in Hz, B1; subst; simpl.
    + rewrite !Z.add_0_r. apply G'; exact B1.
    + rewrite !Z.add_0_r. apply G'; exact B1.
  - destruct (B ltac:(simpl; lia) Hal Hnz) as [B1 _]. clear B. inr3 Hi x y z.
    assert (G' : forall u v, (v * elem) mod A = 0 -> (u * v * elem) mod A = 0)
        by (intros u v Q; rewrite <- Z.mul_assoc, Z.mul_mod, Q, Z.mul_0_r by lia; apply Z.mod_0_l; lia).
    orders Ho; canon3 C st t0 t1 t2; unfold fast, slower, dim_ in *; simpl in Hz, B1; subst; simpl;
      match goal with B1 : (?t * elem) mod A = 0 |- ?e mod A = 0 =>
        first [ replace e with ((x * n1 + y) * t * elem) by ring; apply G'; assumption
              | replace e with ((x * n2 + z) * t * elem) by ring; apply G'; assumption
              | replace e with ((y * n0 + x) * t * elem) by ring; apply G'; assumption
              | replace e with ((y * n2 + z) * t * elem) by ring; apply G'; assumption
              | replace e with ((z * n0 + x) * t * elem) by ring; apply G'; assumption
              | replace e with ((z * n1 + y) * t * elem) by ring; apply G'; assumption ] end.
Qed.

Lemma make_layout2_agrees o p n0 n1 : (o = [0;1]%nat \/ p = P_dense) ->
  p = P_dense \/ (exists A, p = P_aligned A) ->
  make_layout2 o p n0 n1 = make_layout o p [n0;n1].
Proof.
  intros H H'. unfold make_layout2, make_layout. cbn [length].
  destruct (order_valid 2 o); [|reflexivity]. cbn [negb].
  destruct H' as [->|(A & ->)]; [reflexivity|].
  destruct H as [->|H]; [reflexivity|discriminate].
Qed.

Lemma make_rt_padding l ext elem a :
  order_valid (length ext) (rt_order l) = true -> pos_ext ext -> 0 < elem -> rt_ok l elem ->
  is_aligned (rt_packing l) = true -> rt_alignment l <> 0 -> (2 <= length ext)%nat ->
  make_rt l ext elem = Some a ->
  at_ ext (fast (rt_order l)) <= stride a (slower (rt_order l)) /\
  (stride a (slower (rt_order l)) - at_ ext (fast (rt_order l))) * elem < rt_alignment l.
Proof.
  intros Ho F He Hr Ha Hn H2 E.
  destruct (make_rt_some l ext elem Ho F He Hr) as (st & E' & C & _ & B).
  rewrite E in E'. injection E' as ->. cbn [stride].
  destruct (B H2 Ha Hn) as [_ B2]. split; [|exact B2].
  destruct l as [pk o al]; cbn [rt_order rt_packing rt_alignment] in *. clear - Ho C H2.
  destruct ext as [|n0 [|n1 [|n2 [|? ?]]]]; try discriminate Ho.
  - simpl in H2; lia.
  - orders Ho; canon2 C st t0 t1; unfold fast, slower, dim_ in *; simpl; lia.
  - orders Ho; canon3 C st t0 t1 t2; unfold fast, slower, dim_ in *; simpl; lia.
Qed.

Lemma make_rt_index l ext elem a i :
  order_valid (length ext) (rt_order l) = true -> pos_ext ext ->
  make_rt l ext elem = Some a -> in_range ext i ->
  index a i = Some (dot_strides (stride a) 0 i).
Proof.
  intros Ho F E Hi.
  assert (S : exists st, a = ART (rt_order l) ext st /\ length st = length ext).
  { unfold make_rt in E. destruct (negb (elem =? 0)); [|discriminate].
    destruct (_ || _ || _); [|discriminate].
    destruct ext as [|n0 [|n1 [|n2 [|? ?]]]]; try discriminate Ho; cbn [length] in E.
    - injection E as <-. eauto.
    - destruct (rt_pad _ _ _); [|discriminate]. cbn [bind] in E.
      match type of E with Some ?x = Some a => assert (X : a = x) by congruence; clear E; rewrite X end.
      eexists; split; [reflexivity|].
      rewrite !lset_length. reflexivity.
    - destruct (rt_pad _ _ _); [|discriminate]. cbn [bind] in E.
      match type of E with Some ?x = Some a => assert (X : a = x) by congruence; clear E; rewrite X end.
      eexists; split; [reflexivity|].
      rewrite !lset_length. reflexivity. }
  destruct S as (st & -> & Ls). rewrite rt_index by auto. reflexivity.
Qed.

Lemma user_strides_index :
  (forall n t i, in_range [n] i -> index (A1 n t) i = Some (dot_strides (stride (A1 n t)) 0 i)) /\
  (forall n0 n1 t0 t1 i, in_range [n0;n1] i ->
     index (A2any n0 n1 t0 t1) i = Some (dot_strides (stride (A2any n0 n1 t0 t1)) 0 i)) /\
  (forall size st i, (1 <= length size <= 3)%nat -> length st = length size -> in_range size i ->
     index (make_rt_domain size st) i = Some (dot_strides (at_ st) 0 i)).
Proof.
  repeat split.
  - intros n t i Hi. pose proof (proj2 (inb_iff _ _) Hi) as Hb. cbn [index]. rewrite Hb.
    inr1 Hi x. unfold at_; simpl. f_equal; lia.
  - intros n0 n1 t0 t1 i Hi. pose proof (proj2 (inb_iff _ _) Hi) as Hb. cbn [index]. rewrite Hb.
    inr2 Hi x y. unfold at_; simpl. unfold at_; simpl. f_equal; ring.
  - intros size st i H L Hi. unfold make_rt_domain. apply rt_index; auto.
    destruct size as [|n0 [|n1 [|n2 [|? ?]]]]; simpl in *; try reflexivity; lia.
Qed.

Lemma strides_agree_index o p ext l a st :
  order_valid (length ext) o = true ->
  make_layout o p ext = Some l -> a = ART o ext st -> length st = length ext ->
  (forall d, (d < length ext)%nat -> stride a d = stride l d) ->
  forall i, in_range ext i -> index a i = index l i.
Proof.
  intros Ho H -> Ls Hd i Hi. rewrite (make_layout_index _ _ _ _ _ H Hi), rt_index by auto.
  f_equal. destruct ext as [|n0 [|n1 [|n2 [|? ?]]]]; try discriminate Ho; cbn [length] in Hd.
  - inr1 Hi x. cbn [dot_strides]. rewrite <- (Hd 0%nat) by lia. reflexivity.
  - inr2 Hi x y. cbn [dot_strides].
    rewrite <- (Hd 0%nat), <- (Hd 1%nat) by lia. reflexivity.
  - inr3 Hi x y z. cbn [dot_strides].
    rewrite <- (Hd 0%nat), <- (Hd 1%nat), <- (Hd 2%nat) by lia. reflexivity.
Qed.

Lemma block_layout_dense o ext elem l : pos_ext ext -> 0 < elem ->
  make_layout o P_dense ext = Some l ->
  exists a, make_rt (block_layout p_dense o) ext elem = Some a /\
    (forall i, in_range ext i -> index a i = index l i) /\
    (forall d, (d < length ext)%nat -> stride a d = stride l d).
Proof.
  intros F He H. pose proof (make_layout_length _ _ _ _ H) as (Ho & Hlen).
  unfold make_rt. destruct (Z.eqb_spec elem 0); [lia|]. cbn [negb].
  cbn [rt_packing rt_order rt_alignment block_layout is_aligned p_dense]. 
  change (negb (is_aligned p_dense) || (static_alignment p_dense =? 0) || (static_alignment p_dense mod elem =? 0)) with true.
  cbv iota.
  assert (G : forall s, rt_pad (block_layout p_dense o) elem s = Some s) by reflexivity.
  destruct ext as [|n0 [|n1 [|n2 [|? ?]]]]; try discriminate Ho; cbn [length];
    rewrite ?G; cbn [bind]; eexists; (split; [reflexivity|]);
    match goal with |- ?P /\ ?Q => assert (HQ : Q); [| split; [| exact HQ]] end;
    try (eapply strides_agree_index; eauto; rewrite ?lset_length; reflexivity);
    intros d Hd; mk' H Ho; orders Ho; unfold dim_ in *; simpl in H; inversion H; subst;
    destruct d as [|[|[|d]]]; try (simpl in Hd; lia); simpl; unfold at_; simpl; reflexivity || lia.
Qed.

Lemma rt_pad_bytes A o s : 0 < A -> 0 <= s -> is_aligned A = true -> static_alignment A = A ->
  rt_pad (block_layout A o) 1 s = Some (round_up s A).
Proof.
  intros HA Hs Ha He. unfold rt_pad, round_up.
  cbn [rt_packing rt_order rt_alignment block_layout]. rewrite Ha, He.
  destruct (Z.eqb_spec A 0); [lia|]. cbn [negb andb]. rewrite Z.mul_1_l, !Z.mul_1_r.
  destruct (Z.eqb_spec (s mod A) 0) as [E|E]; [reflexivity|]. cbn [negb].
  pose proof (Z.mod_pos_bound s A HA). rewrite Z.mod_1_r, Z.div_1_r, ?Z.mul_1_r.
  destruct (Z.ltb_spec 0 (A - s mod A)); [|lia]. cbn [andb Z.eqb].
  destruct (round_up_spec s A HA Hs) as [R _]. unfold round_up in R.
  destruct (Z.eqb_spec (s mod A) 0); [contradiction|]. rewrite R. reflexivity.
Qed.

Lemma block_layout_aligned o ext A l : pos_ext ext -> A <> p_aligned_512 ->
  is_aligned_enum A = true ->
  make_layout o (P_aligned A) ext = Some l ->
  exists a, make_rt (block_layout A o) ext 1 = Some a /\
    (forall i, in_range ext i -> index a i = index l i) /\
    (forall d, (d < length ext)%nat -> stride a d = stride l d).
Proof.
  intros F HA EA H. pose proof (make_layout_length _ _ _ _ H) as (Ho & Hlen).
  pose proof (enum_pos _ EA) as Hp.
  assert (Hal : is_aligned A = true /\ static_alignment A = A).
  { unfold is_aligned_enum in EA. apply existsb_exists in EA as (x & I & E).
    apply Z.eqb_eq in E; subst x. unfold p_aligned_512 in HA. simpl in I.
    repeat destruct I as [I|I]; try contradiction; subst A; split; reflexivity || lia. }
  destruct Hal as [Hal Hst].
  assert (G : forall s, 0 <= s -> rt_pad (block_layout A o) 1 s = Some (round_up s A))
    by (intros; apply rt_pad_bytes; auto).
  assert (Pn : forall d, 0 <= at_ ext d).
  { clear - F. intros d. unfold at_. destruct (le_lt_dec (length ext) d) as [L|L].
    - rewrite nth_overflow by exact L. lia.
    - apply (proj1 (Forall_nth _ ext) F). exact L. }
  unfold make_rt. cbn [negb Z.eqb].
  cbn [rt_packing rt_order rt_alignment block_layout]. rewrite Z.mod_1_r, !orb_true_r.
  destruct ext as [|n0 [|n1 [|n2 [|? ?]]]]; try discriminate Ho; cbn [length];
    try rewrite G by apply Pn;
    cbn [bind]; eexists; (split; [reflexivity|]);
    match goal with |- ?P /\ ?Q => assert (HQ : Q); [| split; [| exact HQ]] end;
    try (eapply strides_agree_index; eauto; rewrite ?lset_length; reflexivity);
    intros d Hd; mk' H Ho; rewrite EA, ?orb_true_r in H;
    orders Ho; unfold dim_ in *; simpl in H; inversion H; subst;
    destruct d as [|[|[|d]]]; try (simpl in Hd; lia); simpl; unfold at_, dim_; simpl; reflexivity || lia.
Qed.
