From Coq Require Import List Arith Lia Bool Sorted.
From Verif Require Import Base Traversal.
Import ListNotations.

Inductive visits (o ext : list nat) : list nat -> list (list nat) -> Prop :=
| v_stop i : valid ext i = false -> visits o ext i []
| v_step i l : valid ext i = true -> visits o ext (next o ext i) l -> visits o ext i (i :: l).

Lemma visits_traverse o ext i l : visits o ext i l ->
  exists n, forall fuel, n <= fuel -> traverse fuel o ext i = Some l.
Proof.
  induction 1 as [i H|i l H _ (n & IH)].
  - exists 1. intros [|f] Hf; [lia|]. simpl. rewrite H. reflexivity.
  - exists (S n). intros [|f] Hf; [lia|]. simpl. rewrite H, IH by lia. reflexivity.
Qed.

(** Abstract 3-level odometer covering all dimension counts and orders. *)
Section Odo.
  Variables (o ext : list nat) (pk : nat -> nat -> nat -> list nat) (e0 e1 e2 : nat).
  Hypothesis Hv1 : forall a b c, a < e0 -> b < e1 -> c < e2 -> valid ext (pk a b c) = true.
  Hypothesis Hv2 : valid ext (pk e0 e1 e2) = false.
  Hypothesis Hv3 : e0 = 0 \/ e1 = 0 \/ e2 = 0 -> valid ext (pk 0 0 0) = false.
  Hypothesis Hnext : forall a b c, a < e0 -> b < e1 -> c < e2 -> next o ext (pk a b c) =
     if c + 1 =? e2 then
       if b + 1 =? e1 then
         if a + 1 =? e0 then pk (a+1) (b+1) (c+1) else pk (a+1) 0 0
       else pk a (b+1) 0
     else pk a b (c+1).

  Definition row a b c := map (fun k => pk a b k) (seq c (e2 - c)).
  Definition plane a b := flat_map (fun k => row a k 0) (seq b (e1 - b)).
  Definition cube a := flat_map (fun k => plane k 0) (seq a (e0 - a)).

  Lemma run a b c n : n = (e0 - a) * e1 * e2 + (e1 - b) * e2 + (e2 - c) -> a < e0 -> b < e1 -> c < e2 ->
    visits o ext (pk a b c) (row a b c ++ plane a (b+1) ++ cube (a+1)).
  Proof.
    revert a b c. induction n as [n IH] using lt_wf_ind. intros a b c Hn Ha Hb Hc.
    assert (R : row a b c = pk a b c :: row a b (c+1)).
    { unfold row. replace (e2 - c) with (S (e2 - (c+1))) by lia. simpl. repeat f_equal. lia. }
    rewrite R. simpl. apply v_step.
    { apply Hv1; assumption. }
    rewrite Hnext by assumption.
    destruct (Nat.eqb_spec (c+1) e2) as [C|C].
    - assert (row a b (c+1) = []) as -> by (unfold row; replace (e2 - (c+1)) with 0 by lia; reflexivity).
      simpl. destruct (Nat.eqb_spec (b+1) e1) as [B|B].
      + assert (plane a (b+1) = []) as -> by (unfold plane; replace (e1 - (b+1)) with 0 by lia; reflexivity).
        simpl. destruct (Nat.eqb_spec (a+1) e0) as [A|A].
        * assert (cube (a+1) = []) as -> by (unfold cube; replace (e0 - (a+1)) with 0 by lia; reflexivity).
          apply v_stop. rewrite A, B, C. exact Hv2.
        * assert (E : cube (a+1) = row (a+1) 0 0 ++ plane (a+1) (0+1) ++ cube (a+1+1)).
          { unfold cube. replace (e0 - (a+1)) with (S (e0 - (a+1+1))) by lia. simpl.
            unfold plane at 1. replace (e1 - 0) with (S (e1 - (0+1))) by lia. simpl.
            rewrite <- app_assoc. f_equal. f_equal.
            replace (S (a+1)) with (a+1+1) by lia. reflexivity. }
          rewrite E. eapply IH; [|reflexivity|lia|lia|lia].
          subst n. nia.
      + assert (E : plane a (b+1) = row a (b+1) 0 ++ plane a (b+1+1)).
        { unfold plane. replace (e1 - (b+1)) with (S (e1 - (b+1+1))) by lia. simpl.
          f_equal. replace (S (b+1)) with (b+1+1) by lia. reflexivity. }
        rewrite E, <- app_assoc. eapply IH; [|reflexivity|lia|lia|lia].
        subst n. nia.
    - eapply IH; [|reflexivity|lia|lia|lia]. subst n. nia.
  Qed.

  Lemma run0 : exists l, visits o ext (pk 0 0 0) l /\
     (forall i, In i l <-> exists a b c, a < e0 /\ b < e1 /\ c < e2 /\ i = pk a b c) /\
     l = flat_map (fun a => flat_map (fun b => map (fun c => pk a b c) (seq 0 e2)) (seq 0 e1)) (seq 0 e0).
  Proof.
    exists (flat_map (fun a => flat_map (fun b => map (fun c => pk a b c) (seq 0 e2)) (seq 0 e1)) (seq 0 e0)).
    split; [|split; [|reflexivity]].
    - destruct (Nat.eq_dec e0 0) as [Z|Z0].
      { rewrite Z. simpl. apply v_stop. apply Hv3; auto. }
      destruct (Nat.eq_dec e1 0) as [Z|Z1].
      { rewrite Z. replace (flat_map _ (seq 0 e0)) with (@nil (list nat)).
        - apply v_stop. apply Hv3; auto.
        - induction (seq 0 e0); simpl; auto. }
      destruct (Nat.eq_dec e2 0) as [Z|Z2].
      { rewrite Z. replace (flat_map _ (seq 0 e0)) with (@nil (list nat)).
        - apply v_stop. apply Hv3; auto.
        - symmetry. generalize (seq 0 e0) as l. induction l as [|x l IH]; [reflexivity|]. cbn [flat_map].
          rewrite IH, app_nil_r. generalize (seq 0 e1) as m. induction m; simpl; auto. }
      assert (H := run 0 0 0 _ eq_refl ltac:(lia) ltac:(lia) ltac:(lia)).
      replace (flat_map _ (seq 0 e0)) with (row 0 0 0 ++ plane 0 (0+1) ++ cube (0+1)); [exact H|].
      transitivity (cube 0).
      + unfold cube at 2. replace (e0 - 0) with (S (e0 - (0+1))) by lia. simpl.
        unfold plane at 2. replace (e1 - 0) with (S (e1 - (0+1))) by lia. simpl.
        rewrite <- app_assoc. reflexivity.
      + unfold cube, plane, row. rewrite !Nat.sub_0_r. reflexivity.
    - intros i. rewrite in_flat_map. split.
      + intros (a & Ha & H). apply in_flat_map in H. destruct H as (b & Hb & H).
        apply in_map_iff in H. destruct H as (c & E & Hc).
        apply in_seq in Ha, Hb, Hc. exists a, b, c. repeat split; try lia. auto.
      + intros (a & b & c & Ha & Hb & Hc & E). exists a. split; [apply in_seq; lia|].
        apply in_flat_map. exists b. split; [apply in_seq; lia|].
        apply in_map_iff. exists c. split; [auto|apply in_seq; lia].
  Qed.
End Odo.

Lemma sorted_flat_map {A} (R : A -> A -> Prop) (f : nat -> list A) a n :
  (forall k, a <= k < a + n -> StronglySorted R (f k)) ->
  (forall k k' x y, a <= k < a + n -> a <= k' < a + n -> k < k' -> In x (f k) -> In y (f k') -> R x y) ->
  StronglySorted R (flat_map f (seq a n)).
Proof.
  revert a. induction n as [|n IH]; intros a H1 H2; simpl; [constructor|].
  assert (G : forall l1 l2, StronglySorted R l1 -> StronglySorted R l2 ->
     (forall x y, In x l1 -> In y l2 -> R x y) -> StronglySorted R (l1 ++ l2)).
  { clear. intros l1 l2 S1 S2 H. induction S1 as [|x l S1 IH F]; simpl; [exact S2|].
    constructor.
    - apply IH. intros; apply H; [right|]; assumption.
    - apply Forall_app. split; [exact F|]. apply Forall_forall. intros y Hy. apply H; [left; reflexivity|exact Hy]. }
  apply G.
  - apply H1; lia.
  - apply IH; intros; [apply H1; lia|]. apply (H2 k k'); auto; lia.
  - intros x y Hx Hy. apply in_flat_map in Hy. destruct Hy as (k & Hk & Hy).
    apply in_seq in Hk. apply (H2 a k); auto; lia.
Qed.

Lemma sorted_map_seq {A} (R : A -> A -> Prop) (f : nat -> A) a n :
  (forall k k', k < k' -> R (f k) (f k')) -> StronglySorted R (map f (seq a n)).
Proof.
  intros H. revert a; induction n as [|n IH]; intros a; simpl; constructor; auto.
  apply Forall_forall. intros x Hx. apply in_map_iff in Hx. destruct Hx as (k & <- & Hk).
  apply in_seq in Hk. apply H. lia.
Qed.

Definition good (o ext : list nat) : Prop :=
  exists l, visits o ext (repeat 0 (length ext)) l /\
    (forall i, In i l <-> in_range ext i) /\ StronglySorted (lexlt o) l.

Lemma good_from (o ext : list nat) pk e0 e1 e2 :
  (forall a b c, a < e0 -> b < e1 -> c < e2 -> valid ext (pk a b c) = true) ->
  valid ext (pk e0 e1 e2) = false ->
  (e0 = 0 \/ e1 = 0 \/ e2 = 0 -> valid ext (pk 0 0 0) = false) ->
  (forall a b c, a < e0 -> b < e1 -> c < e2 -> next o ext (pk a b c) =
     if c + 1 =? e2 then
       if b + 1 =? e1 then
         if a + 1 =? e0 then pk (a+1) (b+1) (c+1) else pk (a+1) 0 0
       else pk a (b+1) 0
     else pk a b (c+1)) ->
  pk 0 0 0 = repeat 0 (length ext) ->
  (forall i, in_range ext i <-> exists a b c, a < e0 /\ b < e1 /\ c < e2 /\ i = pk a b c) ->
  (forall a b c a' b' c', a < e0 -> b < e1 -> c < e2 -> a' < e0 -> b' < e1 -> c' < e2 ->
     a < a' \/ (a = a' /\ (b < b' \/ (b = b' /\ c < c'))) ->
     lexlt o (pk a b c) (pk a' b' c')) ->
  good o ext.
Proof.
  intros Hv1 Hv2 Hv3 Hn H0 Hr Hlex.
  destruct (run0 o ext pk e0 e1 e2 Hv1 Hv2 Hv3 Hn) as (l & V & M & E).
  exists l. rewrite <- H0. split; [exact V|]. split.
  - intros i. rewrite M, Hr. reflexivity.
  - rewrite E. apply sorted_flat_map.
    + intros a Ha. apply sorted_flat_map.
      * intros b Hb.
        assert (G : forall n c, c + n <= e2 -> StronglySorted (lexlt o) (map (fun c => pk a b c) (seq c n))).
        { induction n as [|n IH]; intros c Hc; simpl; constructor.
          - apply IH; lia.
          - apply Forall_forall. intros x Hx. apply in_map_iff in Hx. destruct Hx as (k & <- & Hk).
            apply in_seq in Hk. apply Hlex; lia. }
        apply G; lia.
      * intros b b' x y Hb Hb' L Hx Hy.
        apply in_map_iff in Hx, Hy. destruct Hx as (c & <- & Hc), Hy as (c' & <- & Hc').
        apply in_seq in Hc, Hc'. apply Hlex; lia.
    + intros a a' x y Ha Ha' L Hx Hy.
      apply in_flat_map in Hx, Hy. destruct Hx as (b & Hb & Hx), Hy as (b' & Hb' & Hy).
      apply in_map_iff in Hx, Hy. destruct Hx as (c & <- & Hc), Hy as (c' & <- & Hc').
      apply in_seq in Hb, Hb', Hc, Hc'. apply Hlex; lia.
Qed.

Lemma in_range_inv3 a b c i : in_range [a;b;c] i ->
  exists x y z, i = [x;y;z] /\ x < a /\ y < b /\ z < c.
Proof.
  unfold in_range; intros H.
  inversion H as [|x ? i1 ? L1 H1]; subst. inversion H1 as [|y ? i2 ? L2 H2]; subst.
  inversion H2 as [|z ? i3 ? L3 H3]; subst. inversion H3; subst. eauto 10.
Qed.
Lemma in_range_inv2 a b i : in_range [a;b] i -> exists x y, i = [x;y] /\ x < a /\ y < b.
Proof.
  unfold in_range; intros H.
  inversion H as [|x ? i1 ? L1 H1]; subst. inversion H1 as [|y ? i2 ? L2 H2]; subst.
  inversion H2; subst. eauto 10.
Qed.
Lemma in_range_inv1 a i : in_range [a] i -> exists x, i = [x] /\ x < a.
Proof.
  unfold in_range; intros H.
  inversion H as [|x ? i1 ? L1 H1]; subst. inversion H1; subst. eauto 10.
Qed.

Ltac leb_all := repeat match goal with |- context [?x <=? ?y] => destruct (Nat.leb_spec x y) end.
Ltac odo_case :=
  match goal with
  | |- forall a b c, _ -> _ -> _ -> valid _ _ = _ => intros a b c ? ? ?; simpl; leb_all; lia
  | |- valid _ _ = _ => simpl; leb_all; lia
  | |- _ \/ _ -> valid _ _ = _ => intro; simpl; leb_all; lia
  | |- forall a b c, _ -> _ -> _ -> next _ _ _ = _ =>
      intros a b c ? ? ?; unfold next, next1, next2, next3, incr, coord; simpl;
      repeat match goal with |- context [?x =? ?y] => destruct (Nat.eqb_spec x y); simpl end;
      first [reflexivity | lia]
  | |- _ = repeat _ _ => reflexivity
  | |- forall a b c a' b' c', _ => intros a b c a' b' c'; intros; simpl; unfold coord; simpl; lia
  end.

Ltac odo3 pk e0 e1 e2 := apply (good_from _ _ pk e0 e1 e2);
  [odo_case|odo_case|odo_case|odo_case|odo_case| |odo_case].

Lemma good3 o e f g : order_valid 3 o = true -> good o [e;f;g].
Proof.
  intros H. unfold order_valid in H.
  destruct o as [|[|[|[|d0]]] [|[|[|[|d1]]] [|[|[|[|d2]]] [|d3 o]]]]; try discriminate.
  - odo3 (fun a b c : nat => [a;b;c]) e f g.
    intros i; split.
    + intros R; apply in_range_inv3 in R. destruct R as (x&y&z&->&?&?&?). exists x,y,z; auto.
    + intros (a&b&c&?&?&?&->). repeat constructor; assumption.
  - odo3 (fun a b c : nat => [a;c;b]) e g f.
    intros i; split.
    + intros R; apply in_range_inv3 in R. destruct R as (x&y&z&->&?&?&?). exists x,z,y; auto.
    + intros (a&b&c&?&?&?&->). repeat constructor; assumption.
  - odo3 (fun a b c : nat => [b;a;c]) f e g.
    intros i; split.
    + intros R; apply in_range_inv3 in R. destruct R as (x&y&z&->&?&?&?). exists y,x,z; auto.
    + intros (a&b&c&?&?&?&->). repeat constructor; assumption.
  - odo3 (fun a b c : nat => [c;a;b]) f g e.
    intros i; split.
    + intros R; apply in_range_inv3 in R. destruct R as (x&y&z&->&?&?&?). exists y,z,x; auto.
    + intros (a&b&c&?&?&?&->). repeat constructor; assumption.
  - odo3 (fun a b c : nat => [b;c;a]) g e f.
    intros i; split.
    + intros R; apply in_range_inv3 in R. destruct R as (x&y&z&->&?&?&?). exists z,x,y; auto.
    + intros (a&b&c&?&?&?&->). repeat constructor; assumption.
  - odo3 (fun a b c : nat => [c;b;a]) g f e.
    intros i; split.
    + intros R; apply in_range_inv3 in R. destruct R as (x&y&z&->&?&?&?). exists z,y,x; auto.
    + intros (a&b&c&?&?&?&->). repeat constructor; assumption.
Qed.

Lemma good2 o e f : order_valid 2 o = true -> good o [e;f].
Proof.
  intros H. unfold order_valid in H.
  destruct o as [|[|[|[|d0]]] [|[|[|[|d1]]] [|[|[|[|d2]]] [|d3 o]]]]; try discriminate.
  - odo3 (fun a b c : nat => [b;c]) 1 e f.
    intros i; split.
    + intros R; apply in_range_inv2 in R. destruct R as (x&y&->&?&?). exists 0,x,y; auto.
    + intros (a&b&c&?&?&?&->). repeat constructor; assumption.
  - odo3 (fun a b c : nat => [c;b]) 1 f e.
    intros i; split.
    + intros R; apply in_range_inv2 in R. destruct R as (x&y&->&?&?). exists 0,y,x; auto.
    + intros (a&b&c&?&?&?&->). repeat constructor; assumption.
Qed.

Lemma good1 o e : order_valid 1 o = true -> good o [e].
Proof.
  intros H. unfold order_valid in H.
  destruct o as [|[|[|[|d0]]] [|[|[|[|d1]]] [|[|[|[|d2]]] [|d3 o]]]]; try discriminate.
  odo3 (fun a b c : nat => [c]) 1 1 e.
  intros i; split.
  + intros R; apply in_range_inv1 in R. destruct R as (x&->&?). exists 0,0,x; auto.
  + intros (a&b&c&?&?&?&->). repeat constructor; assumption.
Qed.

Lemma good_all o ext : order_valid (length ext) o = true -> good o ext.
Proof.
  destruct ext as [|e [|f [|g [|h ext]]]]; simpl length; intros H.
  - destruct o; discriminate.
  - apply good1; exact H.
  - apply good2; exact H.
  - apply good3; exact H.
  - simpl in H. discriminate.
Qed.

Lemma lexlt_irrefl o a : ~ lexlt o a a.
Proof. induction o; simpl; [tauto|]. intros [H|[_ H]]; [lia|auto]. Qed.

Lemma sorted_nodup o l : StronglySorted (lexlt o) l -> NoDup l.
Proof.
  induction 1 as [|x l _ IH F]; constructor; [|exact IH].
  intros Hin. rewrite Forall_forall in F. exact (lexlt_irrefl o x (F x Hin)).
Qed.

Lemma traverse_lemma o ext : order_valid (length ext) o = true ->
  exists l n, (forall fuel, n <= fuel -> traverse fuel o ext (repeat 0 (length ext)) = Some l) /\
    (forall i, In i l <-> in_range ext i) /\ NoDup l /\ StronglySorted (lexlt o) l.
Proof.
  intros H. destruct (good_all o ext H) as (l & V & M & S).
  destruct (visits_traverse _ _ _ _ V) as (n & Hn).
  exists l, n. split; [exact Hn|]. split; [exact M|]. split; [exact (sorted_nodup o l S)|exact S].
Qed.
