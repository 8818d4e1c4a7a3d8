(** Proofs about the chained parallel assignment. *)
From Coq Require Import List Arith ZArith Lia Bool.
From Verif Require Import Base Dist DistProofs Domain DomainProofs Traversal TraversalProofs Map MapProofs ParAssign ParExecProofs.
Import ListNotations.
Local Open Scope nat_scope.

(** ** Boxes *)
Definition bx (fl : nat * nat) (n : nat) : Prop :=
  fst fl + snd fl <= n /\ (fst fl = 0 -> snd fl = 0 -> n = 0).

Lemma dist_box d n sb p fl : dist_ok d = true -> patch_global_dom d n sb p = Some fl -> bx fl n.
Proof.
  intros K E. destruct fl as [f l]. unfold bx; cbn [fst snd].
  destruct (Nat.eq_dec l 0) as [->|L].
  - destruct d as [|num|num c]; cbn [dist_ok] in K.
    + unfold patch_global_dom in E. destruct ((sb =? 0) && (p =? 0)); [|discriminate].
      injection E as E1 E2. lia.
    + apply Nat.ltb_lt in K.
      assert (S : sb < num /\ p = 0).
      { unfold patch_global_dom in E. destruct (Nat.ltb_spec sb num); [|discriminate].
        destruct (Nat.eqb_spec p 0); [auto|discriminate]. }
      destruct S as [S ->]. destruct (block_size_eq num n sb K S) as [_ E']. rewrite E in E'.
      injection E' as Ef El.
      destruct (dm n num ltac:(lia)) as (q & r & Hr & En & Eq & Er). rewrite Eq, Er in *.
      destruct (Nat.ltb_spec sb r); [lia|]. assert (q = 0) by lia. subst q. lia.
    + apply andb_prop in K as [K1 K2]. apply Nat.ltb_lt in K1, K2.
      apply cyclic_patch_size_lemma in E; lia.
  - assert (I : in_patch d n sb p (f + l - 1)) by (exists f, l; split; [exact E|lia]).
    apply (part_inside d n (dist_partitioned d n K)) in I. lia.
Qed.

Lemma list_sum_in l x : In x l -> x <= list_sum l.
Proof.
  induction l as [|a l IH]; intros []; cbn [list_sum fold_right]; fold (list_sum l).
  - lia.
  - specialize (IH H). lia.
Qed.

Lemma dist_lbox d n sb p fl : dist_ok d = true -> patch_local_dom d n sb p = Some fl -> fst fl + snd fl <= n.
Proof.
  intros K E. destruct fl as [f l]. cbn [fst snd].
  destruct (Nat.eq_dec l 0) as [->|L].
  - destruct d as [|num|num c]; cbn [dist_ok] in K.
    + unfold patch_local_dom in E. destruct ((sb =? 0) && (p =? 0)); [|discriminate].
      injection E as E1 E2. lia.
    + unfold patch_local_dom in E. destruct (sb <? num); [|discriminate].
      destruct (p =? 0); [|discriminate].
      destruct (segment_size_block n num sb); [|discriminate]. injection E as E1 E2. lia.
    + apply andb_prop in K as [K1 K2]. apply Nat.ltb_lt in K1, K2.
      pose proof E as E2. unfold patch_local_dom in E2.
      destruct (Nat.ltb_spec sb num); [|discriminate].
      destruct (subblock_patches (Cyclic num c) n sb) as [k|] eqn:Ek; [|discriminate]. cbn [bind] in E2.
      destruct (p <? k) eqn:Ep; [|discriminate].
      destruct (segment_chunk_size n num c sb p) as [l|] eqn:El; [|discriminate]. injection E2 as E3 ->.
      assert (X : patch_global_dom (Cyclic num c) n sb p = Some ((sb + p * num) * c, 0)).
      { unfold patch_global_dom. replace (sb <? num) with true by (symmetry; apply Nat.ltb_lt; lia).
        rewrite Ek. cbn [bind]. rewrite Ep, El. reflexivity. }
      apply cyclic_patch_size_lemma in X; lia.
  - pose proof (dist_partitioned d n K) as P.
    assert (Hs : sb < num_subblocks d).
    { destruct d; cbn [num_subblocks]; unfold patch_local_dom in E.
      - destruct (Nat.eqb_spec sb 0); cbn in E; [lia|discriminate].
      - destruct (Nat.ltb_spec sb num); [lia|discriminate].
      - destruct (Nat.ltb_spec sb num); [lia|discriminate]. }
    destruct (proj1 (part_defined d n P sb) Hs) as (s & Es).
    assert (I : in_local_patch d n sb p (f + l - 1)) by (exists f, l; split; [exact E|lia]).
    assert (f + l - 1 < s) by (apply (part_local_tiles d n P sb s Es); eauto).
    assert (s <= n).
    { pose proof (part_sum d n P) as PS. rewrite <- PS. clear PS. apply list_sum_in, in_map_iff. exists sb. rewrite Es.
      split; [reflexivity|]. apply in_seq. lia. }
    lia.
Qed.

Lemma omap2_box (f : dist -> nat -> nat -> nat -> option (nat * nat)) (B : nat * nat -> nat -> Prop) :
  (forall d n sb p fl, dist_ok d = true -> f d n sb p = Some fl -> B fl n) ->
  forall m sbs ps dom, map_ok m -> length sbs = length m ->
  omap2 (fun ds q => f (fst (fst ds)) (snd (fst ds)) (snd ds) q) (combine m sbs) ps = Some dom ->
  Forall2 B dom (ext_of m).
Proof.
  intros HB. induction m as [|[d n] m IH]; intros [|sb sbs] [|p ps] dom Hm L E; try discriminate.
  - injection E as <-. constructor.
  - cbn [combine omap2 fst snd] in E.
    destruct (f d n sb p) as [fl|] eqn:Ef; [|discriminate]. cbn [bind] in E.
    destruct (omap2 _ (combine m sbs) ps) as [r|] eqn:Er; [|discriminate]. injection E as <-.
    inversion Hm as [|? ? K1 K2]; subst. constructor; [exact (HB _ _ _ _ _ K1 Ef)|].
    apply (IH sbs ps r K2); [cbn in L; lia|exact Er].
Qed.

Lemma map_box m sb p dom : map_ok m -> map_global_domain m sb p = Some dom -> Forall2 bx dom (ext_of m).
Proof.
  intros Hm E. destruct (patch_dom_inv _ _ _ _ _ Hm E) as (sbs & ks & ps & A & _ & _ & _ & _ & F).
  eapply omap2_box; [exact dist_box|exact Hm| |exact F].
  apply F2_len in A. unfold subblocks in A. rewrite map_length in A. exact A.
Qed.
Lemma map_lbox m sb p dom : map_ok m -> map_local_domain m sb p = Some dom ->
  Forall2 (fun fl n => fst fl + snd fl <= n) dom (ext_of m).
Proof.
  intros Hm E. destruct (patch_dom_inv _ _ _ _ _ Hm E) as (sbs & ks & ps & A & _ & _ & _ & _ & F).
  eapply omap2_box; [exact dist_lbox|exact Hm| |exact F].
  apply F2_len in A. unfold subblocks in A. rewrite map_length in A. exact A.
Qed.

(** ** Intersections of boxes *)
Definition zd (fl : nat * nat) : dom := mkdom (Z.of_nat (fst fl)) 1 (Z.of_nat (snd fl)).
Definition ibox1 (a b : nat * nat) : option (nat * nat) :=
  let f := Nat.max (fst a) (fst b) in let e := Nat.min (fst a + snd a) (fst b + snd b) in
  if f <? e then Some (f, e - f) else if fst a + snd a =? 0 then Some (0, 0) else None.
Fixpoint ibox (a b : list (nat * nat)) : option (list (nat * nat)) :=
  match a, b with
  | x :: a', y :: b' =>
      match ibox1 x y with
      | None => None
      | Some i => match ibox a' b' with None => None | Some r => Some (i :: r) end
      end
  | _, _ => Some []
  end.

Lemma zd_ok f l : (Z.of_nat f < H64 -> Z.of_nat (f + l) < H64 -> dom_ok (zd (f, l)))%Z.
Proof.
  intros A B. unfold dom_ok, zd, idx; cbn [fst snd dfirst dstride dlen].
  pose proof H64_pos. assert (1 < H64)%Z by reflexivity. lia.
Qed.

Lemma zd_last f l : (Z.of_nat (f + l) < H64)%Z ->
  impl_last (zd (f, l)) = if f + l =? 0 then (W64 - 1)%Z else Z.of_nat (f + l - 1).
Proof.
  intros B. pose proof W64_H64. pose proof H64_pos.
  destruct (Nat.eq_dec l 0) as [->|L].
  - unfold impl_last, impl_nth, zd; cbn [fst snd dfirst dstride dlen].
    replace (Z.of_nat 0 - 1)%Z with (-1)%Z by reflexivity.
    rewrite s64_u64, s64_small by lia.
    destruct (Nat.eqb_spec (f + 0) 0) as [E|E].
    + assert (f = 0) by lia; subst f. rewrite u64_neg by lia. lia.
    + rewrite u64_small by lia. lia.
  - destruct (Nat.eqb_spec (f + l) 0); [lia|].
    rewrite last_idx; [|apply zd_ok; lia|cbn; lia].
    unfold zd, idx; cbn [fst snd dfirst dstride dlen]. lia.
Qed.

Lemma isect1 a b n : (Z.of_nat n < H64)%Z -> bx a n -> bx b n ->
  intersect (zd a) (zd b) = Some (option_map zd (ibox1 a b)).
Proof.
  intros Hn [A1 A2] [B1 B2]. destruct a as [f l], b as [f' l']. cbn [fst snd] in *.
  pose proof W64_H64 as W. pose proof H64_pos as HP.
  unfold intersect. rewrite !zd_last by lia. cbn [zd fst snd dfirst dstride dlen Z.eqb Pos.eqb].
  unfold ibox1; cbn [fst snd].
  destruct (Nat.eqb_spec (f + l) 0) as [E|E].
  - assert (f = 0 /\ l = 0) as [-> ->] by lia. assert (n = 0) by auto; subst n.
    assert (f' = 0 /\ l' = 0) as [-> ->] by lia. cbn [Nat.add Nat.eqb].
    rewrite Z.min_id, Z.max_id. change (Z.of_nat 0) with 0%Z.
    cbn [Nat.max Nat.min Nat.ltb Nat.leb].
    destruct (Z.leb_spec 0 (W64 - 1)) as [L|L]; [|lia].
    rewrite (u64_small (W64 - 1 - 0)) by lia.
    replace (W64 - 1 - 0 + 1)%Z with (0 + 1 * W64)%Z by lia. rewrite u64_eq.
    replace (u64 0) with 0%Z by (symmetry; apply u64_small; lia).
    rewrite make_ok; [reflexivity|]. apply (zd_ok 0 0); cbn; lia.
  - destruct (Nat.eqb_spec (f' + l') 0) as [E'|E'].
    { assert (f' = 0 /\ l' = 0) as [-> ->] by lia. assert (n = 0) by auto. lia. }
    destruct (Nat.ltb_spec (Nat.max f f') (Nat.min (f + l) (f' + l'))) as [L|L].
    + destruct (Z.leb_spec (Z.max (Z.of_nat f) (Z.of_nat f')) (Z.min (Z.of_nat (f + l - 1)) (Z.of_nat (f' + l' - 1)))) as [M|M]; [|lia].
      set (F := Nat.max f f') in *. set (e := Nat.min (f + l) (f' + l')) in *.
      replace (Z.max (Z.of_nat f) (Z.of_nat f')) with (Z.of_nat F) by lia.
      replace (Z.min (Z.of_nat (f + l - 1)) (Z.of_nat (f' + l' - 1))) with (Z.of_nat (e - 1)) by lia.
      rewrite (u64_small (_ - _)) by lia. rewrite u64_small by lia.
      replace (Z.of_nat (e - 1) - Z.of_nat F + 1)%Z with (Z.of_nat (e - F)) by lia.
      assert (e <= n) by (unfold e; lia).
      rewrite make_ok; [reflexivity|]. apply (zd_ok F (e - F)); lia.
    + destruct (Z.leb_spec (Z.max (Z.of_nat f) (Z.of_nat f')) (Z.min (Z.of_nat (f + l - 1)) (Z.of_nat (f' + l' - 1)))) as [M|M]; [lia|].
      reflexivity.
Qed.

Lemma isectD ext : Forall (fun n => (Z.of_nat n < H64)%Z) ext -> forall a b,
  Forall2 bx a ext -> Forall2 bx b ext -> intersectD (zdom a) (zdom b) = Some (option_map zdom (ibox a b)).
Proof.
  induction 1 as [|n ext Hn _ IH]; intros a b A B.
  - inversion A; subst; inversion B; subst. reflexivity.
  - inversion A as [|x ? a' ? X A']; subst. inversion B as [|y ? b' ? Y B']; subst.
    cbn [zdom map intersectD ibox]. fold (zd x). fold (zd y). fold (zdom a') (zdom b').
    rewrite (isect1 x y n Hn X Y). cbn [bind]. destruct (ibox1 x y) as [i|]; cbn [option_map]; [|reflexivity].
    rewrite (IH a' b' A' B'). cbn [bind]. destruct (ibox a' b'); reflexivity.
Qed.

Lemma ibox1_sym a b n : bx a n -> bx b n -> ibox1 b a = ibox1 a b.
Proof.
  intros [A1 A2] [B1 B2]. unfold ibox1. rewrite (Nat.max_comm (fst b)), (Nat.min_comm (fst b + snd b)).
  destruct (_ <? _); [reflexivity|].
  destruct (Nat.eqb_spec (fst a + snd a) 0), (Nat.eqb_spec (fst b + snd b) 0); try reflexivity; exfalso.
  - assert (n = 0) by (apply A2; lia). lia.
  - assert (n = 0) by (apply B2; lia). lia.
Qed.
Lemma ibox_sym ext : forall a b, Forall2 bx a ext -> Forall2 bx b ext -> ibox b a = ibox a b.
Proof.
  induction ext as [|n ext IH]; intros a b A B; inversion A; subst; inversion B; subst; [reflexivity|].
  cbn [ibox]. erewrite ibox1_sym by eassumption. erewrite IH by eassumption. reflexivity.
Qed.

Definition sub1 (i g : nat * nat) : Prop := fst g <= fst i /\ fst i + snd i <= fst g + snd g.
Lemma ibox1_sub a b n i : bx a n -> bx b n -> ibox1 a b = Some i ->
  sub1 i a /\ sub1 i b /\ (forall x, fst i <= x < fst i + snd i <-> (fst a <= x < fst a + snd a /\ fst b <= x < fst b + snd b)).
Proof.
  intros [A1 A2] [B1 B2] E. unfold ibox1 in E. unfold sub1.
  destruct (Nat.ltb_spec (Nat.max (fst a) (fst b)) (Nat.min (fst a + snd a) (fst b + snd b))).
  - injection E as <-. cbn [fst snd]. repeat split; try lia.
  - destruct (Nat.eqb_spec (fst a + snd a) 0); [|discriminate]. injection E as <-. cbn [fst snd].
    assert (n = 0) by (apply A2; lia). repeat split; lia.
Qed.
Lemma ibox1_none a b x : ibox1 a b = None -> ~ (fst a <= x < fst a + snd a /\ fst b <= x < fst b + snd b).
Proof.
  unfold ibox1. destruct (Nat.ltb_spec (Nat.max (fst a) (fst b)) (Nat.min (fst a + snd a) (fst b + snd b))); [discriminate|].
  lia.
Qed.

Lemma ibox_sub ext : forall a b i, Forall2 bx a ext -> Forall2 bx b ext -> ibox a b = Some i ->
  Forall2 sub1 i a /\ Forall2 sub1 i b /\ (forall g, in_box i g <-> in_box a g /\ in_box b g).
Proof.
  unfold in_box. induction ext as [|n ext IH]; intros a b i A B E; inversion A as [|x ? a' ? X A']; subst; inversion B as [|y ? b' ? Y B']; subst.
  - injection E as <-. repeat split; try constructor; try tauto.
  - cbn [ibox] in E. destruct (ibox1 x y) as [j|] eqn:Ej; [|discriminate].
    destruct (ibox a' b') as [r|] eqn:Er; [|discriminate]. injection E as <-.
    destruct (ibox1_sub _ _ _ _ X Y Ej) as (P & Q & R). destruct (IH _ _ _ A' B' Er) as (P' & Q' & R').
    split; [constructor; assumption|]. split; [constructor; assumption|].
    intros g. split.
    + intros H; inversion H as [|? ? ? ? G1 G2]; subst. apply R' in G2 as [? ?]. apply R in G1 as [? ?]. split; constructor; assumption.
    + intros [H K]; inversion H; subst; inversion K; subst. constructor; [apply R; auto|apply R'; auto].
Qed.
Lemma ibox_none a : forall b g, ibox a b = None -> ~ (in_box a g /\ in_box b g).
Proof.
  unfold in_box. induction a as [|x a IH]; intros [|y b] g E [H K]; try discriminate.
  inversion H; subst; inversion K; subst. cbn [ibox] in E.
  destruct (ibox1 x y) as [j|] eqn:Ej; [|apply (ibox1_none _ _ x0 Ej); auto].
  destruct (ibox a b) as [r|] eqn:Er; [discriminate|]. apply (IH _ l Er). auto.
Qed.

(** Local domain of an intersection. *)
Definition shift1 (ld gd i : nat * nat) : nat * nat := (fst ld + (fst i - fst gd), snd i).
Fixpoint shift (ld gd i : list (nat * nat)) : list (nat * nat) :=
  match ld, gd, i with
  | a :: ld', b :: gd', c :: i' => shift1 a b c :: shift ld' gd' i'
  | _, _, _ => []
  end.

Lemma app1 ld gd i n : (Z.of_nat n < H64)%Z -> snd ld = snd gd -> fst ld + snd ld <= n -> sub1 i gd ->
  bx gd n -> apply_intr (zd ld) (zd gd) (zd i) = Some (zd (shift1 ld gd i)).
Proof.
  intros Hn S L [A B] [C _]. unfold apply_intr, zd, shift1; cbn [fst snd dfirst dstride dlen].
  pose proof W64_H64 as W. pose proof H64_pos as HP. assert (1 < H64)%Z by reflexivity.
  rewrite Z.mul_1_l. rewrite s64_small by lia. rewrite (u64_small 1) by lia. rewrite Z.mul_1_r.
  rewrite (u64_small (Z.of_nat (fst i) - _)) by lia. rewrite (u64_small (Z.of_nat (fst i) - _)) by lia.
  rewrite u64_small by lia.
  replace (Z.of_nat (fst ld) + (Z.of_nat (fst i) - Z.of_nat (fst gd)))%Z with (Z.of_nat (fst ld + (fst i - fst gd))) by lia.
  rewrite make_ok; [reflexivity|]. apply (zd_ok (fst ld + (fst i - fst gd)) (snd i)); lia.
Qed.

Lemma appD ext : Forall (fun n => (Z.of_nat n < H64)%Z) ext -> forall ld gd i,
  map snd ld = map snd gd -> Forall2 (fun fl n => fst fl + snd fl <= n) ld ext ->
  Forall2 sub1 i gd -> Forall2 bx gd ext ->
  apply_intrD (zdom ld) (zdom gd) (zdom i) = Some (zdom (shift ld gd i)).
Proof.
  induction 1 as [|n ext Hn _ IH]; intros ld gd i S L I G.
  - inversion L; subst; inversion G; subst; inversion I; subst. reflexivity.
  - inversion L as [|a ? ld' ? L1 L2]; subst. inversion G as [|b ? gd' ? G1 G2]; subst.
    inversion I as [|c ? i' ? I1 I2]; subst. cbn [map] in S. injection S as S1 S2.
    cbn [zdom map apply_intrD shift]. fold (zd a) (zd b) (zd c). fold (zdom ld') (zdom gd') (zdom i').
    rewrite (app1 a b c n) by assumption. cbn [bind]. rewrite IH by assumption. reflexivity.
Qed.

Lemma shift_nth ld : forall gd i x, map snd ld = map snd gd -> Forall2 sub1 i gd -> in_range (map snd i) x ->
  map snd (shift ld gd i) = map snd i /\
  exists y, in_range (map snd gd) y /\ domain_nth (shift ld gd i) x = domain_nth ld y /\
            domain_nth i x = domain_nth gd y.
Proof.
  induction ld as [|a ld IH]; intros gd i x S I X.
  - destruct gd; [|discriminate]. inversion I; subst. inversion X; subst. split; [reflexivity|].
    exists []. repeat split; constructor.
  - destruct gd as [|b gd]; [discriminate|]. cbn [map] in S. injection S as S1 S2.
    inversion I as [|c ? i' ? I1 I2]; subst. inversion X as [|x0 ? x' ? X1 X2]; subst.
    destruct (IH gd i' x' S2 I2 X2) as (E & y & Y1 & Y2 & Y3).
    cbn [shift map shift1 snd]. split; [f_equal; exact E|]. destruct I1 as [Ia Ib].
    exists ((fst c - fst b + x0) :: y). unfold domain_nth in *. cbn [combine map fst snd].
    split; [constructor; [lia|exact Y1]|]. rewrite Y2, Y3. unfold shift1; cbn [fst snd]. split; f_equal; lia.
Qed.

(** ** Chains *)
Definition recs (O : list nat) (ext : list nat) : list (list (list nat)) :=
  match O with
  | [d0] => [map (fun a => lset [0] d0 a) (seq 0 (coord ext d0))]
  | [d0; d1] => map (fun a => map (fun b => lset (lset [0;0] d0 a) d1 b) (seq 0 (coord ext d1))) (seq 0 (coord ext d0))
  | [d0; d1; d2] =>
      flat_map (fun a => map (fun b => map (fun c => lset (lset (lset [0;0;0] d0 a) d1 b) d2 c)
        (seq 0 (coord ext d2))) (seq 0 (coord ext d1))) (seq 0 (coord ext d0))
  | _ => []
  end.

Ltac orders H := 
  match type of H with order_valid ?n ?o = true =>
    destruct o as [|[|[|[|d0]]] [|[|[|[|d1]]] [|[|[|[|d2]]] [|d3 o]]]]; try discriminate H end.

Lemma len_cases {A} (l : list A) O : order_valid (length l) O = true ->
  (exists a, l = [a]) \/ (exists a b, l = [a; b]) \/ (exists a b c, l = [a; b; c]).
Proof.
  destruct l as [|a [|b [|c [|d l]]]]; cbn [length]; intros H; eauto 10.
  - destruct O; discriminate.
  - destruct O; discriminate.
Qed.

Lemma recs_in O ext x : order_valid (length ext) O = true -> (In x (concat (recs O ext)) <-> in_range ext x).
Proof.
  intros H. destruct (len_cases ext O H) as [(a & ->)|[(a & b & ->)|(a & b & c & ->)]]; cbn [length] in H.
  - orders H. cbn [recs concat app coord nth]. rewrite app_nil_r, in_map_iff. split.
    + intros (i & <- & Hi). apply in_seq in Hi. cbn. constructor; [lia|constructor].
    + intros K. apply in_range_inv1 in K as (i & -> & Hi). exists i. rewrite in_seq. split; [reflexivity|lia].
  - split.
    + intros K. apply in_concat in K as (r & Hr & Hx).
      orders H; cbn [recs coord nth] in Hr; apply in_map_iff in Hr as (i & <- & Hi);
        apply in_map_iff in Hx as (j & <- & Hj); apply in_seq in Hi, Hj; cbn; constructor; try lia; constructor; try lia; constructor.
    + intros K. apply in_range_inv2 in K as (i & j & -> & Hi & Hj). apply in_concat.
      orders H; cbn [recs coord nth]; (eexists; split; [apply in_map_iff; eexists; split; [reflexivity|apply in_seq]|
        apply in_map_iff; eexists; split; [cbn [lset]; reflexivity|apply in_seq; lia]]; lia).
  - split.
    + intros K. apply in_concat in K as (r & Hr & Hx).
      orders H; cbn [recs coord nth] in Hr; apply in_flat_map in Hr as (k & Hk & Hr); apply in_map_iff in Hr as (i & <- & Hi);
        apply in_map_iff in Hx as (j & <- & Hj); apply in_seq in Hi, Hj, Hk; cbn; constructor; try lia; constructor; try lia; constructor; try lia; constructor.
    + intros K. apply in_range_inv3 in K as (i & j & k & -> & Hi & Hj & Hk). apply in_concat.
      orders H; cbn [recs coord nth]; (eexists; split; [apply in_flat_map; eexists; split; [apply in_seq|apply in_map_iff; eexists; split; [reflexivity|apply in_seq]]|
        apply in_map_iff; eexists; split; [cbn [lset]; reflexivity|apply in_seq; lia]]; lia).
Qed.

Lemma concat_map_map {A B} (f : A -> list (list B)) l : concat (flat_map f l) = flat_map (fun a => concat (f a)) l.
Proof. induction l as [|a l IH]; cbn; [reflexivity|]. rewrite concat_app, IH. reflexivity. Qed.

Lemma nodup_map_seq {A} (f : nat -> A) n : (forall i j, f i = f j -> i = j) -> NoDup (map f (seq 0 n)).
Proof. intros H. apply NoDup_map_inj; [intros x y _ _; apply H|apply seq_NoDup]. Qed.

Lemma recs_nodup O ext : order_valid (length ext) O = true -> NoDup (concat (recs O ext)).
Proof.
  intros H. destruct (len_cases ext O H) as [(a & ->)|[(a & b & ->)|(a & b & c & ->)]]; cbn [length] in H.
  - orders H. cbn [recs concat app coord nth lset]. rewrite app_nil_r. apply nodup_map_seq. congruence.
  - orders H; cbn [recs coord nth lset]; rewrite <- flat_map_concat_map; (apply NoDup_flat_map;
     [apply seq_NoDup|intros i _; apply nodup_map_seq; congruence|
      intros i j x _ _ A B; apply in_map_iff in A as (? & <- & _); apply in_map_iff in B as (? & ? & _); congruence]).
  - orders H; cbn [recs coord nth lset]; rewrite concat_map_map; (apply NoDup_flat_map;
     [apply seq_NoDup|intros k _; rewrite <- flat_map_concat_map; apply NoDup_flat_map;
       [apply seq_NoDup|intros i _; apply nodup_map_seq; congruence|
        intros i j x _ _ A B; apply in_map_iff in A as (? & <- & _); apply in_map_iff in B as (? & ? & _); congruence]|
      intros i j x _ _ A B; apply in_concat in A as (? & A' & A); apply in_concat in B as (? & B' & B);
       apply in_map_iff in A' as (? & <- & _); apply in_map_iff in B' as (? & <- & _);
       apply in_map_iff in A as (? & <- & _); apply in_map_iff in B as (? & ? & _); congruence]).
Qed.

Lemma chain_recs O b st : order_valid (length b) O = true -> length st = length b ->
  chain_add O (zdom b) st = Some (map (map (fun x => off st (domain_nth b x))) (recs O (map snd b))).
Proof.
  intros H L. destruct (len_cases b O H) as [([f l] & ->)|[([f l] & [f' l'] & ->)|([f l] & [f' l'] & [f'' l''] & ->)]]; cbn [length] in H, L.
  - destruct st as [|s [|]]; try discriminate. orders H.
    cbn [chain_add Nat.eqb recs map snd coord nth]. unfold record, zdim, ddim. cbn [zdom map nth fst snd dfirst dstride dlen].
    rewrite Nat2Z.id, map_map. do 2 f_equal. apply map_ext. intros i.
    unfold domain_nth. cbn [lset combine map fst snd off]. lia.
  - destruct st as [|s [|s' [|]]]; try discriminate.
    orders H; cbn [chain_add recs map snd coord nth]; unfold record2, record, zdim, ddim; cbn [zdom map nth fst snd dfirst dstride dlen];
    rewrite !Nat2Z.id, map_map; f_equal; apply map_ext; intros i; rewrite map_map; apply map_ext; intros j;
    unfold domain_nth; cbn [lset combine map fst snd off]; lia.
  - destruct st as [|s [|s' [|s'' [|]]]]; try discriminate.
    orders H; cbn [chain_add recs map snd coord nth]; unfold record2, record, zdim, ddim; cbn [zdom map nth fst snd dfirst dstride dlen];
    rewrite !Nat2Z.id, !flat_map_concat_map, concat_map, map_map; do 2 f_equal; apply map_ext; intros k; rewrite map_map; apply map_ext; intros i; rewrite map_map; apply map_ext; intros j;
    unfold domain_nth; cbn [lset combine map fst snd off]; lia.
Qed.

(** ** A replicated map is a map whose dimensions are not divided *)
Lemma whole_subs m : Forall (fun d => fst d = Whole) m -> subblocks m = map (fun _ => 1) m.
Proof.
  induction 1 as [|[d n] m H _ IH]; [reflexivity|]. cbn in H; subst d. cbn. f_equal. exact IH.
Qed.
Lemma ones_prod {A} (m : list A) : prod (map (fun _ => 1) m) = 1.
Proof. induction m; [reflexivity|]. cbn [map prod fold_right]. fold (prod (map (fun _ => 1) m)). lia. Qed.
Lemma ones_horner {A} (m : list A) : horner 0 (map (fun _ => 1) m) (map (fun _ => 0) m) = 0.
Proof. induction m; [reflexivity|]. cbn. exact IHm. Qed.
Lemma zeros_ones {A} (m : list A) : Forall2 lt (map (fun _ => 0) m) (map (fun _ => 1) m).
Proof. induction m; constructor; auto. Qed.

Notation zs m := (map (fun _ : dist * nat => 0) m).
Notation os m := (map (fun _ : dist * nat => 1) m).

Lemma whole_num m : Forall (fun d => fst d = Whole) m -> map_num_subblocks m = 1.
Proof. intros W. unfold map_num_subblocks. rewrite (whole_subs m W). apply ones_prod. Qed.
Lemma whole_sb m : Forall (fun d => fst d = Whole) m -> Forall2 lt (zs m) (subblocks m) /\ horner 0 (subblocks m) (zs m) = 0.
Proof. intros W. rewrite (whole_subs m W). split; [apply zeros_ones|apply ones_horner]. Qed.
Lemma whole_counts m : Forall (fun d => fst d = Whole) m -> patch_counts m (zs m) = Some (os m).
Proof.
  intros W. unfold patch_counts. induction W as [|[d n] l H _ IH]; [reflexivity|]. cbn in H; subst d.
  cbn [map omap2 fst snd]. cbn [subblock_patches Nat.eqb]. cbn [bind]. rewrite IH. reflexivity.
Qed.
Lemma whole_dom_eq m f : Forall (fun d => fst d = Whole) m -> (f = patch_global_dom \/ f = patch_local_dom) ->
  omap2 (pdm f) (combine m (zs m)) (zs m) = Some (map (fun n => (0, n)) (ext_of m)).
Proof.
  intros W F. induction W as [|[d n] l H _ IH]; [reflexivity|]. cbn in H; subst d.
  cbn [map omap2 combine ext_of]. unfold pdm at 1. cbn [fst snd].
  assert (f Whole n 0 0 = Some (0, n)) as -> by (destruct F as [-> | ->]; reflexivity).
  cbn [bind]. rewrite IH. reflexivity.
Qed.
Lemma whole_size m : Forall (fun d => fst d = Whole) m -> omap2 ssz m (zs m) = Some (ext_of m).
Proof.
  intros W. induction W as [|[d n] l H _ IH]; [reflexivity|]. cbn in H; subst d.
  cbn [map omap2]. unfold ssz at 1. cbn [fst snd subblock_size Nat.eqb bind]. rewrite IH. reflexivity.
Qed.
Lemma whole_gfl m : Forall (fun d => fst d = Whole) m -> forall l, in_range (ext_of m) l -> omap2 gfl (combine m (zs m)) l = Some l.
Proof.
  intros W. induction W as [|[d n] m' H _ IH]; intros l Hl; inversion Hl as [|x ? l' ? X L]; subst; [reflexivity|].
  cbn in H; subst d. cbn [map omap2 combine]. unfold gfl at 1. cbn [fst snd] in *.
  cbn [global_from_local_index Nat.eqb andb]. apply Nat.ltb_lt in X. rewrite X. cbn [bind]. rewrite IH by assumption. reflexivity.
Qed.

Lemma whole_np m sb : Forall (fun d => fst d = Whole) m -> map_num_patches m sb = if sb =? 0 then Some 1 else None.
Proof.
  intros W. destruct (Nat.eqb_spec sb 0) as [->|N].
  - destruct (whole_sb m W) as [A B]. rewrite <- B at 1. rewrite (num_patches_ok m (zs m) (os m) A (whole_counts m W)).
    rewrite ones_prod. reflexivity.
  - unfold map_num_patches. rewrite (whole_num m W). destruct (Nat.ltb_spec sb 1); [lia|reflexivity].
Qed.
Lemma whole_pd m f sb p : Forall (fun d => fst d = Whole) m -> (f = patch_global_dom \/ f = patch_local_dom) ->
  patch_dom f m sb p = if (sb =? 0) && (p =? 0) then Some (map (fun n => (0, n)) (ext_of m)) else None.
Proof.
  intros W F. destruct (Nat.eqb_spec sb 0) as [->|N]; [destruct (Nat.eqb_spec p 0) as [->|N']|]; cbn [andb].
  - destruct (whole_sb m W) as [A B]. rewrite <- B at 1.
    pose proof (ones_horner m) as C. rewrite <- C at 2.
    rewrite (patch_dom_ok f m (zs m) (os m) (zs m) A (whole_counts m W) (zeros_ones m)). apply (whole_dom_eq m f W F).
  - unfold patch_dom. rewrite (whole_num m W), (whole_np m 0 W). cbn [Nat.ltb Nat.leb Nat.eqb bind].
    destruct p; [contradiction|reflexivity].
  - unfold patch_dom. rewrite (whole_num m W). destruct (Nat.ltb_spec sb 1); [lia|reflexivity].
Qed.
Lemma whole_ext m sb : Forall (fun d => fst d = Whole) m -> map_subblock_extent m sb = if sb =? 0 then Some (ext_of m) else None.
Proof.
  intros W. destruct (Nat.eqb_spec sb 0) as [->|N].
  - destruct (whole_sb m W) as [A B]. rewrite <- B at 1. rewrite (extent_ok m (zs m) A). apply (whole_size m W).
  - unfold map_subblock_extent. rewrite (whole_num m W). destruct (Nat.ltb_spec sb 1); [lia|reflexivity].
Qed.
Lemma whole_gfl0 m l : Forall (fun d => fst d = Whole) m -> in_range (ext_of m) l -> map_global_from_local_index m 0 l = Some l.
Proof.
  intros W H. destruct (whole_sb m W) as [A B]. rewrite <- B at 1. rewrite (gfl_ok m (zs m) l A). apply (whole_gfl m W l H).
Qed.

Section AMap.
Variable a : amap.
Hypothesis Ha : amap_ok a.
Let m := a_dims a.

Lemma a_np sb : a_num_patches a sb = map_num_patches m sb.
Proof.
  unfold a_num_patches. destruct (a_rep a) eqn:R; [|reflexivity].
  unfold m. rewrite (whole_np _ _ (ok_rep a Ha R)). destruct (sb =? 0); reflexivity.
Qed.
Lemma a_gd sb p : a_gdom a sb p = map_global_domain m sb p.
Proof.
  unfold a_gdom. destruct (a_rep a) eqn:R; [|reflexivity].
  unfold m, map_global_domain. rewrite (whole_pd _ _ _ _ (ok_rep a Ha R)) by auto. destruct ((sb =? 0) && (p =? 0)); reflexivity.
Qed.
Lemma a_ld sb p : a_ldom a sb p = map_local_domain m sb p.
Proof.
  unfold a_ldom. destruct (a_rep a) eqn:R; [|reflexivity].
  unfold m, map_local_domain. rewrite (whole_pd _ _ _ _ (ok_rep a Ha R)) by auto. destruct ((sb =? 0) && (p =? 0)); reflexivity.
Qed.
Lemma a_lx sb : a_lext a sb = map_subblock_extent m sb.
Proof.
  unfold a_lext. destruct (a_rep a) eqn:R; [|reflexivity].
  unfold m. rewrite (whole_ext _ _ (ok_rep a Ha R)). destruct (sb =? 0); reflexivity.
Qed.
Lemma a_gf sb ext l : map_subblock_extent m sb = Some ext -> in_range ext l ->
  a_gfl a sb l = map_global_from_local_index m sb l.
Proof.
  unfold a_gfl. destruct (a_rep a) eqn:R; [|reflexivity].
  unfold m. rewrite (whole_ext _ _ (ok_rep a Ha R)). destruct (Nat.eqb_spec sb 0) as [->|N]; [|discriminate].
  intros [= <-] Hl. rewrite whole_gfl0; [reflexivity|exact (ok_rep a Ha R)|exact Hl].
Qed.

(** Owners. *)
Lemma rank_lt l x k : rank_from_proc l x = Some k -> k < length l.
Proof.
  revert k; induction l as [|y l IH]; cbn; intros k; [discriminate|].
  destruct (y =? x); [intros [= <-]; lia|]. destruct (rank_from_proc l x); [|discriminate].
  intros [= <-]. specialize (IH n eq_refl). lia.
Qed.
Lemma rank_some l x : In x l <-> exists k, rank_from_proc l x = Some k.
Proof.
  pose proof (rank_none l x) as N. destruct (rank_from_proc l x) as [k|] eqn:E.
  - split; [eauto|]. intros _. destruct (in_dec Nat.eq_dec x l) as [i|i]; [exact i|]. apply N in i. discriminate.
  - split; [|intros (k & ?); discriminate]. intros H. exfalso. apply N; auto.
Qed.

Lemma a_ranks_eq : a_ranks a = a_pvec a.
Proof.
  unfold a_ranks. pose proof (ok_len a Ha) as L. destruct (a_rep a); [reflexivity|].
  rewrite L, Nat.min_id, <- L. apply firstn_all.
Qed.

Lemma a_sub_iff pr : (exists sb, a_subblock a pr = Some sb) <-> In pr (a_pvec a).
Proof.
  unfold a_subblock. pose proof (ok_len a Ha) as L. rewrite (rank_some (a_pvec a) pr). destruct (a_rep a).
  - unfold rep_subblock. destruct (rank_from_proc (a_pvec a) pr); split; eauto; intros (? & ?); discriminate.
  - unfold map_subblock. destruct (rank_from_proc (a_pvec a) pr) as [k|] eqn:E.
    + apply rank_lt in E. rewrite L in E. apply Nat.ltb_lt in E. rewrite E. split; eauto.
    + split; intros (? & ?); discriminate.
Qed.

Lemma a_valid pr sb : a_subblock a pr = Some sb -> sb < map_num_subblocks m.
Proof.
  unfold a_subblock. destruct (a_rep a) eqn:R.
  - unfold rep_subblock. destruct (rank_from_proc _ _); [|discriminate]. intros [= <-].
    unfold m. rewrite (whole_num _ (ok_rep a Ha R)). lia.
  - unfold map_subblock. destruct (rank_from_proc _ _) as [k|]; [|discriminate].
    destruct (Nat.ltb_spec k (map_num_subblocks (a_dims a))); [|discriminate]. intros [= <-]. assumption.
Qed.

(** Owner list of a valid subblock. *)
Lemma a_procs sb : sb < map_num_subblocks m -> exists l f, a_processors a sb = Some l /\
  a_first a sb = Some f /\ In f l /\ (forall pr, In pr l <-> a_subblock a pr = Some sb).
Proof.
  intros H. unfold a_first, a_processors, a_subblock. pose proof (ok_len a Ha) as L. pose proof (ok_pvec a Ha) as N.
  destruct (a_rep a) eqn:R.
  - unfold m in H. rewrite (whole_num _ (ok_rep a Ha R)) in H. assert (sb = 0) by lia; subst sb.
    unfold rep_processors, rep_subblock. cbn [Nat.eqb bind].
    destruct (a_pvec a) as [|f l] eqn:E; [cbn in L; lia|]. rewrite <- E.
    exists (a_pvec a), f. rewrite E. cbn [bind hd_error]. repeat split; auto.
    + left; reflexivity.
    + intros I. rewrite <- E in *. apply rank_some in I as (k & ->). reflexivity.
    + intros I. rewrite <- E in *. apply rank_some. destruct (rank_from_proc (a_pvec a) pr); [eauto|discriminate].
  - unfold map_processors, map_subblock. fold m. fold m in L. pose proof H as H'. apply Nat.ltb_lt in H'. rewrite H'.
    rewrite Nat.mod_small by assumption.
    destruct (nth_error (a_pvec a) sb) as [p|] eqn:E; [|apply nth_error_None in E; lia].
    exists [p], p. cbn [bind hd_error]. repeat split; auto.
    + left; reflexivity.
    + intros [->|[]]. apply (rank_spec _ _ _ N) in E. rewrite E, H'. reflexivity.
    + intros X. destruct (rank_from_proc (a_pvec a) pr) as [k|] eqn:K; [|discriminate].
      destruct (k <? map_num_subblocks m); [|discriminate]. injection X as ->.
      apply (rank_spec _ _ _ N) in K. left. congruence.
Qed.

Lemma a_has sb pr : sb < map_num_subblocks m -> exists b, processor_has_block a pr sb = Some b /\
  (b = true <-> a_subblock a pr = Some sb).
Proof.
  intros H. destruct (a_procs sb H) as (l & f & E & _ & _ & I). unfold processor_has_block. rewrite E. cbn [bind].
  eexists; split; [reflexivity|]. rewrite existsb_exists, <- I. split.
  - intros (x & Hx & Ex). apply Nat.eqb_eq in Ex. subst; assumption.
  - intros Hx. exists pr. split; [assumption|apply Nat.eqb_refl].
Qed.

Definition inS (sb : nat) (g : list nat) : Prop :=
  in_range (a_ext a) g /\ map_subblock_from_global_index m g = Some sb.

(** [o] is the offset of the local element holding global element [g]. *)
Definition at_off (st : list Z) (sb : nat) (o : Z) (g : list nat) : Prop :=
  exists ext l, a_lext a sb = Some ext /\ in_range ext l /\ a_gfl a sb l = Some g /\ o = off st l.

Lemma mp : map_partitioned m.
Proof. apply map_partitioned_lemma, (ok_dims a Ha). Qed.

Lemma size_ok : Forall (fun n => (Z.of_nat n < H64)%Z) (a_ext a).
Proof.
  unfold a_ext, ext_of. apply Forall_forall. intros n Hn. apply in_map_iff in Hn as (d & <- & Hd).
  pose proof (ok_size a Ha) as S. rewrite Forall_forall in S. apply S, Hd.
Qed.

Lemma patch_facts sb p gd : a_gdom a sb p = Some gd -> exists ld,
  a_ldom a sb p = Some ld /\ map snd ld = map snd gd /\
  Forall2 bx gd (a_ext a) /\ Forall2 (fun fl n => fst fl + snd fl <= n) ld (a_ext a) /\
  (forall y st, in_range (map snd gd) y -> at_off st sb (off st (domain_nth ld y)) (domain_nth gd y)) /\
  (forall g, in_box gd g -> inS sb g).
Proof.
  rewrite a_gd, a_ld. intros E. pose proof (ok_dims a Ha) as K. fold m in K.
  destruct (mp_patch_match m mp sb p gd E) as (ld & E1 & E2 & E3).
  exists ld. split; [exact E1|]. split; [exact E2|]. split; [apply (map_box m sb p gd K E)|].
  split; [apply (map_lbox m sb p ld K E1)|]. split.
  - intros y st Hy. 
    assert (I : in_map_local_patch m sb p (domain_nth ld y)).
    { exists ld. split; [exact E1|]. apply nth_in_box. rewrite E2. exact Hy. }
    destruct (in_local_patch_home m sb p _ K I) as (ext & g & X1 & X2 & _ & _).
    exists ext, (domain_nth ld y). rewrite a_lx, (a_gf sb ext) by assumption. repeat split; auto.
  - intros g Hg. destruct (in_patch_home m sb p g K) as (A & B & _); [exists gd; auto|]. split; assumption.
Qed.

Lemma patches_exist sb : sb < map_num_subblocks m -> exists k, a_num_patches a sb = Some k /\
  (forall p, p < k -> exists gd, a_gdom a sb p = Some gd) /\
  (forall g, inS sb g -> exists p gd, p < k /\ a_gdom a sb p = Some gd /\ in_box gd g).
Proof.
  intros H. destruct (mp_patches m mp sb H) as (k & E & P). exists k. rewrite a_np. split; [exact E|]. split.
  - intros p Hp. rewrite a_gd. apply P, Hp.
  - intros g [A B]. destruct (mp_home m mp g A) as (sb' & p & l & ext & X1 & _ & _ & (gd & X2 & X3) & _).
    assert (sb' = sb) by congruence; subst sb'. exists p, gd. rewrite a_gd. split; [|auto].
    apply P. eauto.
Qed.

Lemma patch_unique sb p p' gd gd' g : a_gdom a sb p = Some gd -> a_gdom a sb p' = Some gd' ->
  in_box gd g -> in_box gd' g -> p = p'.
Proof.
  rewrite !a_gd. intros A B C D. pose proof (ok_dims a Ha) as K. fold m in K.
  destruct (in_patch_home m sb p g K) as (_ & _ & X); [exists gd; auto|].
  destruct (in_patch_home m sb p' g K) as (_ & _ & Y); [exists gd'; auto|]. congruence.
Qed.

Lemma at_off_inS st sb o g : at_off st sb o g -> inS sb g.
Proof.
  intros (ext & l & A & B & C & _). rewrite a_lx in A. rewrite (a_gf sb ext l A B) in C.
  destruct (mp_back m mp sb ext l A B) as (g' & X1 & X2 & X3 & _). split; [|congruence].
  assert (g' = g) by congruence; subst; assumption.
Qed.
Lemma at_off_fun st sb o o' g : at_off st sb o g -> at_off st sb o' g -> o = o'.
Proof.
  intros (ext & l & A & B & C & ->) (ext' & l' & A' & B' & C' & ->). rewrite a_lx in A, A'.
  assert (ext' = ext) by congruence; subst ext'. rewrite (a_gf sb ext l A B) in C. rewrite (a_gf sb ext l' A B') in C'.
  destruct (mp_back m mp sb ext l A B) as (g1 & X1 & _ & _ & X4).
  destruct (mp_back m mp sb ext l' A B') as (g2 & Y1 & _ & _ & Y4).
  assert (g1 = g2) by congruence. subst. f_equal. congruence.
Qed.
Lemma at_off_inj st sb ext o g g' : a_lext a sb = Some ext -> own_cell ext st ->
  at_off st sb o g -> at_off st sb o g' -> g = g'.
Proof.
  intros E W (ext1 & l & A & B & C & D) (ext2 & l' & A' & B' & C' & D').
  assert (ext1 = ext /\ ext2 = ext) as [-> ->] by (split; congruence).
  assert (l = l') by (apply W; auto; congruence). subst. congruence.
Qed.
End AMap.

(** ** Messages between a pair of subblocks *)
Lemma collect_rel {A B} (Q : A -> B -> Prop) (f : nat -> option (list A)) (g : nat -> list B) k : forall i,
  (forall j, i <= j < i + k -> exists x, f j = Some x /\ Forall2 Q x (g j)) ->
  exists x, collect i k f = Some x /\ Forall2 Q x (flat_map g (seq i k)).
Proof.
  induction k as [|k IH]; intros i H; cbn [collect seq flat_map].
  - exists []. split; [reflexivity|constructor].
  - destruct (H i ltac:(lia)) as (x & E & F).
    destruct (IH (i + 1)) as (y & E' & F'); [intros j Hj; apply H; lia|].
    rewrite E. cbn [bind]. rewrite E'. cbn [bind]. exists (x ++ y). split; [reflexivity|].
    apply Forall2_app; [exact F|]. rewrite Nat.add_1_r in F'. exact F'.
Qed.

Lemma F2_maps {A B C} (Q : B -> C -> Prop) (f : A -> B) (g : A -> C) l :
  (forall x, In x l -> Q (f x) (g x)) -> Forall2 Q (map f l) (map g l).
Proof.
  induction l as [|a l IH]; intros H; cbn; constructor; [apply H; left; reflexivity|].
  apply IH. intros; apply H; right; assumption.
Qed.

Lemma F2_concat {A B} (Q : A -> B -> Prop) l l' : Forall2 (Forall2 Q) l l' -> Forall2 Q (concat l) (concat l').
Proof. induction 1; cbn; [constructor|]. apply Forall2_app; assumption. Qed.

Section Pair.
Variables (O : list nat) (lhs rhs : amap).
Hypothesis Hl : amap_ok lhs.
Hypothesis Hr : amap_ok rhs.
Hypothesis HE : a_ext lhs = a_ext rhs.
Hypothesis HO : order_valid (length (a_ext lhs)) O = true.

(** Global index records of two patches. *)
Definition gpatch (bd bs : list (nat * nat)) : list (list (list nat)) :=
  match ibox bd bs with
  | None => []
  | Some ib => map (map (domain_nth ib)) (recs O (map snd ib))
  end.
Definition bval (o : option (list (nat * nat))) := match o with Some b => b | None => [] end.
Definition nval (o : option nat) := match o with Some b => b | None => 0 end.
Definition grecs (lsb rsb : nat) : list (list (list nat)) :=
  flat_map (fun dp => flat_map (fun sp => gpatch (bval (a_gdom lhs lsb dp)) (bval (a_gdom rhs rsb sp)))
                               (seq 0 (nval (a_num_patches rhs rsb))))
           (seq 0 (nval (a_num_patches lhs lsb))).

Lemma box_len b : Forall2 bx b (a_ext lhs) -> length b = length (a_ext lhs).
Proof. apply F2_len. Qed.

(** The local records of one intersection, for either side. *)
Lemma one_side a (Ha : amap_ok a) (Ea : a_ext a = a_ext lhs) sb p gd ld ib st :
  a_gdom a sb p = Some gd -> a_ldom a sb p = Some ld -> Forall2 sub1 ib gd -> length st = length (a_ext lhs) ->
  exists sd, apply_intrD (zdom ld) (zdom gd) (zdom ib) = Some sd /\
  exists c, chain_add O sd st = Some c /\
  Forall2 (Forall2 (at_off a st sb)) c (map (map (domain_nth ib)) (recs O (map snd ib))).
Proof.
  intros Eg El S Ls. destruct (patch_facts a Ha sb p gd Eg) as (ld' & E1 & E2 & E3 & E4 & E5 & _).
  assert (ld' = ld) by congruence; subst ld'.
  exists (zdom (shift ld gd ib)). split; [apply (appD (a_ext a) (size_ok a Ha)); assumption|].
  assert (Lg : length gd = length (a_ext lhs)) by (rewrite <- Ea; apply F2_len in E3; exact E3).
  assert (Li : length ib = length (a_ext lhs)) by (apply F2_len in S; lia).
  assert (Ld : length ld = length (a_ext lhs)).
  { apply (f_equal (@length nat)) in E2. rewrite !map_length in E2. lia. }
  assert (Lsh : length (shift ld gd ib) = length (a_ext lhs)).
  { rewrite <- Ld. clear -Ld Lg Li. revert gd ib Ld Lg Li. generalize (length (a_ext lhs)) as n.
    induction ld as [|x ld IH]; intros n [|y gd] [|z ib] A B C; cbn in *; try lia. f_equal. destruct n; [lia|]. apply (IH n); lia. }
  rewrite (chain_recs O _ st) by (rewrite Lsh; assumption). eexists; split; [reflexivity|].
  assert (Es : forall x, in_range (map snd ib) x -> map snd (shift ld gd ib) = map snd ib).
  { intros x Hx. apply (shift_nth ld gd ib x E2 S Hx). }
  assert (Es' : map snd (shift ld gd ib) = map snd ib).
  { clear -Lsh Li Ld Lg. revert Lsh Li Ld Lg. generalize (length (a_ext lhs)) as n. revert gd ib.
    induction ld as [|x ld IH]; intros [|y gd] [|z ib] n A B C D; cbn in *; try lia; try reflexivity.
    f_equal. destruct n; [lia|]. apply (IH gd ib n); lia. }
  rewrite Es'. apply F2_maps. intros r Hrr. apply F2_maps. intros x Hx.
  assert (X : in_range (map snd ib) x).
  { apply (recs_in O); [rewrite map_length, Li; exact HO|]. apply in_concat. eauto. }
  destruct (shift_nth ld gd ib x E2 S X) as (_ & y & Y1 & Y2 & Y3). rewrite Y2, Y3. apply E5, Y1.
Qed.

Lemma isect_both a b : Forall2 bx a (a_ext lhs) -> Forall2 bx b (a_ext lhs) ->
  intersectD (zdom a) (zdom b) = Some (option_map zdom (ibox a b)).
Proof. intros A B. apply (isectD (a_ext lhs) (size_ok lhs Hl)); assumption. Qed.

Lemma send_chain_ok st lsb rsb : lsb < map_num_subblocks (a_dims lhs) -> rsb < map_num_subblocks (a_dims rhs) ->
  length st = length (a_ext lhs) -> exists c, send_chain O lhs rhs st lsb rsb = Some c /\
  Forall2 (Forall2 (at_off rhs st rsb)) c (grecs lsb rsb).
Proof.
  intros Kl Kr Ls. unfold send_chain, grecs.
  destruct (patches_exist lhs Hl lsb Kl) as (nd & End & Pd & _).
  destruct (patches_exist rhs Hr rsb Kr) as (ns & Ens & Ps & _).
  rewrite End, Ens. cbn [bind nval]. apply collect_rel. intros dp Hdp.
  destruct (Pd dp ltac:(lia)) as (gd & Egd). rewrite Egd. cbn [bind bval].
  apply collect_rel. intros sp Hsp. destruct (Ps sp ltac:(lia)) as (gs & Egs). rewrite Egs. cbn [bind bval].
  destruct (patch_facts lhs Hl lsb dp gd Egd) as (ld & _ & _ & Bd & _).
  destruct (patch_facts rhs Hr rsb sp gs Egs) as (ls & Els & _ & Bs & _). rewrite <- HE in Bs.
  rewrite Els. cbn [bind]. rewrite isect_both by assumption. cbn [bind]. unfold gpatch.
  rewrite (ibox_sym (a_ext lhs) gd gs Bd Bs).
  destruct (ibox gd gs) as [ib|] eqn:Ei; cbn [option_map].
  - destruct (ibox_sub _ _ _ _ Bd Bs Ei) as (_ & S & _).
    destruct (one_side rhs Hr (eq_sym HE) rsb sp gs ls ib st Egs Els S Ls) as (sd & A & c & B & C).
    rewrite A. cbn [bind]. exists c. auto.
  - exists []. split; [reflexivity|constructor].
Qed.

Lemma recv_chain_ok st lsb rsb : lsb < map_num_subblocks (a_dims lhs) -> rsb < map_num_subblocks (a_dims rhs) ->
  length st = length (a_ext lhs) -> exists c, recv_chain O lhs rhs st lsb rsb = Some c /\
  Forall2 (Forall2 (at_off lhs st lsb)) c (grecs lsb rsb).
Proof.
  intros Kl Kr Ls. unfold recv_chain, grecs.
  destruct (patches_exist lhs Hl lsb Kl) as (nd & End & Pd & _).
  destruct (patches_exist rhs Hr rsb Kr) as (ns & Ens & Ps & _).
  rewrite End, Ens. cbn [bind nval]. apply collect_rel. intros dp Hdp.
  destruct (Pd dp ltac:(lia)) as (gd & Egd). rewrite Egd. cbn [bind bval].
  destruct (patch_facts lhs Hl lsb dp gd Egd) as (ld & Eld & _ & Bd & _). rewrite Eld. cbn [bind].
  apply collect_rel. intros sp Hsp. destruct (Ps sp ltac:(lia)) as (gs & Egs). rewrite Egs. cbn [bind bval].
  destruct (patch_facts rhs Hr rsb sp gs Egs) as (ls & Els & _ & Bs & _). rewrite <- HE in Bs.
  rewrite isect_both by assumption. cbn [bind]. unfold gpatch.
  destruct (ibox gd gs) as [ib|] eqn:Ei; cbn [option_map].
  - destruct (ibox_sub _ _ _ _ Bd Bs Ei) as (S & _ & _).
    destruct (one_side lhs Hl eq_refl lsb dp gd ld ib st Egd Eld S Ls) as (sd & A & c & B & C).
    rewrite A. cbn [bind]. exists c. auto.
  - exists []. split; [reflexivity|constructor].
Qed.

(** The local copies of one processor. *)
Definition cact (rst lst : list Z) (lsb rsb : nat) (x : action) (gs : list (list nat)) : Prop :=
  exists f t, x = ACopy f t /\ Forall2 (at_off rhs rst rsb) f gs /\ Forall2 (at_off lhs lst lsb) t gs.

Lemma collectL_app {A B} (f : A -> option (list B)) l l' x y :
  collectL l f = Some x -> collectL l' f = Some y -> collectL (l ++ l') f = Some (x ++ y).
Proof.
  revert x. induction l as [|a l IH]; cbn [collectL app]; intros x E E'.
  - injection E as <-. exact E'.
  - destruct (f a) as [u|]; [|discriminate]. cbn [bind] in *.
    destruct (collectL l f) as [v|]; [|discriminate]. cbn [bind] in E. injection E as <-.
    rewrite (IH v eq_refl E'). cbn [bind]. rewrite app_assoc. reflexivity.
Qed.

Lemma copy_ok rst lst lsb rsb : lsb < map_num_subblocks (a_dims lhs) -> rsb < map_num_subblocks (a_dims rhs) ->
  length rst = length (a_ext lhs) -> length lst = length (a_ext lhs) ->
  exists c cs G, copy_records lhs rhs lsb rsb = Some c /\ collectL c (copy_action O rst lst) = Some cs /\
  Forall2 (cact rst lst lsb rsb) cs G /\ concat G = concat (grecs lsb rsb).
Proof.
  intros Kl Kr Lr Ll. unfold copy_records, grecs.
  destruct (patches_exist lhs Hl lsb Kl) as (nd & End & Pd & _).
  destruct (patches_exist rhs Hr rsb Kr) as (ns & Ens & Ps & _).
  rewrite End, Ens. cbn [bind nval].
  assert (CC : forall (f : nat -> option (list (list dom * list dom))) (g : nat -> list (list (list nat))) k i,
    (forall j, i <= j < i + k -> exists c cs G, f j = Some c /\ collectL c (copy_action O rst lst) = Some cs /\
       Forall2 (cact rst lst lsb rsb) cs G /\ concat G = concat (g j)) ->
    exists c cs G, collect i k f = Some c /\ collectL c (copy_action O rst lst) = Some cs /\
       Forall2 (cact rst lst lsb rsb) cs G /\ concat G = concat (flat_map g (seq i k))).
  { intros f g k. induction k as [|k IH]; intros i H; cbn [collect seq flat_map].
    - exists [], [], []. repeat split; constructor.
    - destruct (H i ltac:(lia)) as (c & cs & G & E1 & E2 & E3 & E4).
      destruct (IH (i + 1)) as (c' & cs' & G' & F1 & F2 & F3 & F4); [intros j Hj; apply H; lia|].
      rewrite E1. cbn [bind]. rewrite F1. cbn [bind]. exists (c ++ c'), (cs ++ cs'), (G ++ G').
      split; [reflexivity|]. split; [apply collectL_app; assumption|]. split; [apply Forall2_app; assumption|].
      rewrite !concat_app, E4, F4, Nat.add_1_r. reflexivity. }
  apply CC. intros dp Hdp. destruct (Pd dp ltac:(lia)) as (gd & Egd). rewrite Egd. cbn [bind bval].
  destruct (patch_facts lhs Hl lsb dp gd Egd) as (ld & Eld & _ & Bd & _). rewrite Eld. cbn [bind].
  apply CC. intros sp Hsp. destruct (Ps sp ltac:(lia)) as (gs & Egs). rewrite Egs. cbn [bind bval].
  destruct (patch_facts rhs Hr rsb sp gs Egs) as (ls & Els & _ & Bs & _). rewrite <- HE in Bs.
  rewrite Els. cbn [bind]. rewrite isect_both by assumption. cbn [bind]. unfold gpatch.
  rewrite (ibox_sym (a_ext lhs) gd gs Bd Bs).
  destruct (ibox gd gs) as [ib|] eqn:Ei; cbn [option_map].
  - destruct (ibox_sub _ _ _ _ Bd Bs Ei) as (Sd & Ss & _).
    destruct (one_side rhs Hr (eq_sym HE) rsb sp gs ls ib rst Egs Els Ss Lr) as (sd & A & c & B & C).
    destruct (one_side lhs Hl eq_refl lsb dp gd ld ib lst Egd Eld Sd Ll) as (sd' & A' & c' & B' & C').
    rewrite A, A'. cbn [bind]. eexists _, _, [concat (map (map (domain_nth ib)) (recs O (map snd ib)))].
    split; [reflexivity|]. cbn [collectL]. unfold copy_action. cbn [fst snd]. rewrite B, B'. cbn [bind app].
    split; [reflexivity|]. split.
    + constructor; [|constructor]. eexists _, _. split; [reflexivity|]. split; apply F2_concat; assumption.
    + cbn [concat]. apply app_nil_r.
  - exists [], [], []. repeat split; constructor.
Qed.

(** Which elements a message carries. *)
Lemma gpatch_in bd bs g : Forall2 bx bd (a_ext lhs) -> Forall2 bx bs (a_ext lhs) ->
  (In g (concat (gpatch bd bs)) <-> in_box bd g /\ in_box bs g).
Proof.
  intros Bd Bs. unfold gpatch. destruct (ibox bd bs) as [ib|] eqn:Ei.
  - destruct (ibox_sub _ _ _ _ Bd Bs Ei) as (Sd & _ & Sx). rewrite <- Sx.
    assert (Li : length ib = length (a_ext lhs)) by (apply F2_len in Sd; apply F2_len in Bd; lia).
    rewrite <- concat_map, in_map_iff. split.
    + intros (x & <- & Hx). apply nth_in_box. apply (recs_in O) in Hx; [exact Hx|]. rewrite map_length, Li. exact HO.
    + intros H. destruct (in_box_nth _ _ H) as (x & Hx & ->). exists x. split; [reflexivity|].
      apply (recs_in O); [rewrite map_length, Li; exact HO|exact Hx].
  - cbn. split; [tauto|]. apply ibox_none, Ei.
Qed.
Lemma gpatch_nodup bd bs : Forall2 bx bd (a_ext lhs) -> Forall2 bx bs (a_ext lhs) -> NoDup (concat (gpatch bd bs)).
Proof.
  intros Bd Bs. unfold gpatch. destruct (ibox bd bs) as [ib|] eqn:Ei; [|constructor].
  destruct (ibox_sub _ _ _ _ Bd Bs Ei) as (Sd & _ & Sx).
  assert (Li : length ib = length (a_ext lhs)) by (apply F2_len in Sd; apply F2_len in Bd; lia).
  assert (OV : order_valid (length (map snd ib)) O = true) by (rewrite map_length, Li; exact HO).
  rewrite <- concat_map. apply NoDup_map_inj; [|apply recs_nodup, OV].
  intros x y Hx Hy. apply (recs_in O _ _ OV) in Hx, Hy. apply F2_len in Hx, Hy. rewrite map_length in Hx, Hy.
  apply domain_nth_inj; assumption.
Qed.

Lemma grecs_in lsb rsb g : lsb < map_num_subblocks (a_dims lhs) -> rsb < map_num_subblocks (a_dims rhs) ->
  (In g (concat (grecs lsb rsb)) <-> inS lhs lsb g /\ inS rhs rsb g).
Proof.
  intros Kl Kr. unfold grecs.
  destruct (patches_exist lhs Hl lsb Kl) as (nd & End & Pd & Qd).
  destruct (patches_exist rhs Hr rsb Kr) as (ns & Ens & Ps & Qs). rewrite End, Ens. cbn [nval].
  rewrite concat_map_map, in_flat_map. split.
  - intros (dp & Hdp & H). rewrite concat_map_map, in_flat_map in H. destruct H as (sp & Hsp & H).
    apply in_seq in Hdp, Hsp. destruct (Pd dp ltac:(lia)) as (gd & Egd). destruct (Ps sp ltac:(lia)) as (gs & Egs).
    rewrite Egd, Egs in H. cbn [bval] in H.
    destruct (patch_facts lhs Hl lsb dp gd Egd) as (ld & _ & _ & Bd & _ & _ & Xd).
    destruct (patch_facts rhs Hr rsb sp gs Egs) as (ls & _ & _ & Bs & _ & _ & Xs). rewrite <- HE in Bs.
    apply (gpatch_in _ _ _ Bd Bs) in H as [A B]. split; auto.
  - intros [A B]. destruct (Qd g A) as (dp & gd & Hdp & Egd & Ig). destruct (Qs g B) as (sp & gs & Hsp & Egs & Is).
    destruct (patch_facts lhs Hl lsb dp gd Egd) as (ld & _ & _ & Bd & _).
    destruct (patch_facts rhs Hr rsb sp gs Egs) as (ls & _ & _ & Bs & _). rewrite <- HE in Bs.
    exists dp. split; [apply in_seq; lia|]. rewrite concat_map_map, in_flat_map. exists sp. split; [apply in_seq; lia|].
    rewrite Egd, Egs. cbn [bval]. apply (gpatch_in _ _ _ Bd Bs). auto.
Qed.

Lemma grecs_nodup lsb rsb : lsb < map_num_subblocks (a_dims lhs) -> rsb < map_num_subblocks (a_dims rhs) ->
  NoDup (concat (grecs lsb rsb)).
Proof.
  intros Kl Kr. unfold grecs.
  destruct (patches_exist lhs Hl lsb Kl) as (nd & End & Pd & _).
  destruct (patches_exist rhs Hr rsb Kr) as (ns & Ens & Ps & _). rewrite End, Ens. cbn [nval].
  assert (FX : forall dp sp, dp < nd -> sp < ns -> exists gd gs, a_gdom lhs lsb dp = Some gd /\ a_gdom rhs rsb sp = Some gs /\
     Forall2 bx gd (a_ext lhs) /\ Forall2 bx gs (a_ext lhs)).
  { intros dp sp Hdp Hsp. destruct (Pd dp Hdp) as (gd & Egd). destruct (Ps sp Hsp) as (gs & Egs).
    destruct (patch_facts lhs Hl lsb dp gd Egd) as (ld & _ & _ & Bd & _).
    destruct (patch_facts rhs Hr rsb sp gs Egs) as (ls & _ & _ & Bs & _). rewrite <- HE in Bs. eauto 10. }
  rewrite concat_map_map. apply NoDup_flat_map; [apply seq_NoDup| |].
  - intros dp Hdp. apply in_seq in Hdp. rewrite concat_map_map. apply NoDup_flat_map; [apply seq_NoDup| |].
    + intros sp Hsp. apply in_seq in Hsp. destruct (FX dp sp ltac:(lia) ltac:(lia)) as (gd & gs & -> & -> & Bd & Bs).
      apply gpatch_nodup; assumption.
    + intros sp sp' g Hsp Hsp' A B. apply in_seq in Hsp, Hsp'.
      destruct (FX dp sp ltac:(lia) ltac:(lia)) as (gd & gs & Ed & Es & Bd & Bs).
      destruct (FX dp sp' ltac:(lia) ltac:(lia)) as (gd' & gs' & Ed' & Es' & Bd' & Bs').
      rewrite Ed, Es in A. rewrite Ed', Es' in B. cbn [bval] in *.
      apply (gpatch_in _ _ _ Bd Bs) in A as [_ A]. apply (gpatch_in _ _ _ Bd' Bs') in B as [_ B].
      apply (patch_unique rhs Hr rsb sp sp' gs gs' g); assumption.
  - intros dp dp' g Hdp Hdp' A B. rewrite concat_map_map, in_flat_map in A, B.
    destruct A as (sp & Hsp & A). destruct B as (sp' & Hsp' & B). apply in_seq in Hsp, Hsp', Hdp, Hdp'.
    destruct (FX dp sp ltac:(lia) ltac:(lia)) as (gd & gs & Ed & Es & Bd & Bs).
    destruct (FX dp' sp' ltac:(lia) ltac:(lia)) as (gd' & gs' & Ed' & Es' & Bd' & Bs').
    rewrite Ed, Es in A. rewrite Ed', Es' in B. cbn [bval] in *.
    apply (gpatch_in _ _ _ Bd Bs) in A as [A _]. apply (gpatch_in _ _ _ Bd' Bs') in B as [B _].
    apply (patch_unique lhs Hl lsb dp dp' gd gd' g); assumption.
Qed.

(** ** The lists of one processor *)
Lemma collectL_msgs (l : list nat) (f : nat -> option (list (nat * list Z))) (P : nat -> list Z -> Prop) :
  NoDup l -> (forall x, In x l -> exists r, f x = Some r /\ (length r <= 1) /\ (forall q o, In (q, o) r <-> q = x /\ P x o)) ->
  exists r, collectL l f = Some r /\ NoDup (map fst r) /\ (forall q o, In (q, o) r <-> In q l /\ P q o).
Proof.
  induction 1 as [|x l Hx N IH]; intros H; cbn [collectL].
  - exists []. repeat split; try constructor; intros; cbn in *; tauto.
  - destruct (H x (or_introl eq_refl)) as (r & E & L & I).
    destruct IH as (r' & E' & N' & I'); [intros; apply H; right; assumption|].
    rewrite E. cbn [bind]. rewrite E'. cbn [bind]. exists (r ++ r'). split; [reflexivity|]. split.
    + rewrite map_app. apply app_NoDup; [| exact N'|].
      * destruct r as [|? [|]]; cbn in L; try lia; cbn; repeat constructor; intros [].
      * intros z Hz Hz'. apply in_map_iff in Hz as ([q o] & <- & Hq). apply in_map_iff in Hz' as ([q' o'] & Eq & Hq').
        cbn in Eq. apply I in Hq as [-> _]. apply I' in Hq' as [Hq' _]. subst. contradiction.
    + intros q o. rewrite in_app_iff, I, I'. cbn [In]. split.
      * intros [[-> ?]|[? ?]]; auto.
      * intros [[->|?] ?]; auto.
Qed.

Lemma message_spec q c (G : list (list (list nat))) (Q : Z -> list nat -> Prop) : Forall2 (Forall2 Q) c G ->
  length (message q c) <= 1 /\
  (forall q' o, In (q', o) (message q c) <-> q' = q /\ (c <> [] /\ o = concat c)).
Proof.
  intros _. destruct c as [|r c]; cbn [message].
  - split; [cbn; lia|]. intros q' o. cbn. intuition congruence.
  - split; [cbn; lia|]. intros q' o. cbn [In]. split.
    + intros [[= <- <-]|[]]. repeat split. discriminate.
    + intros (-> & _ & ->). left; reflexivity.
Qed.

Variables (rst lst : nat -> list Z).
Hypothesis Lr : forall r, length (rst r) = length (a_ext lhs).
Hypothesis Ll : forall r, length (lst r) = length (a_ext lhs).

(** Processor [p] sends to processor [q] the elements of [gs]. *)
Definition talk (p q : nat) (rsb lsb : nat) : Prop :=
  p <> q /\ a_subblock rhs p = Some rsb /\ a_first rhs rsb = Some p /\ a_subblock lhs q = Some lsb /\
  a_subblock rhs q <> Some rsb /\ grecs lsb rsb <> [].

Lemma send_list rank : exists S, build_send_list O lhs rhs (rst rank) rank = Some S /\ NoDup (map fst S) /\
  (forall q o, In (q, o) S -> exists rsb lsb, talk rank q rsb lsb /\
     Forall2 (at_off rhs (rst rank) rsb) o (concat (grecs lsb rsb))) /\
  (forall q rsb lsb, talk rank q rsb lsb -> In q (map fst S)).
Proof using All.
  unfold build_send_list. destruct (a_subblock rhs rank) as [rsb|] eqn:Er.
  2:{ exists []. split; [reflexivity|]. split; [constructor|]. split; [intros q o []|].
      intros q rsb lsb (_ & X & _). congruence. }
  pose proof (a_valid rhs Hr _ _ Er) as Kr.
  destruct (a_procs rhs Hr rsb Kr) as (pl & f & _ & Ef & _). rewrite Ef. cbn [bind].
  destruct (Nat.eqb_spec f rank) as [->|Nf].
  2:{ exists []. split; [reflexivity|]. split; [constructor|]. split; [intros q o []|].
      intros q rsb' lsb (_ & X & Y & _). congruence. }
  set (P := fun q o => exists lsb c, talk rank q rsb lsb /\ send_chain O lhs rhs (rst rank) lsb rsb = Some c /\ o = concat c).
  rewrite (a_ranks_eq lhs Hl).
  destruct (collectL_msgs (a_pvec lhs) (fun proc =>
     if proc =? rank then Some [] else match a_subblock lhs proc with
     | Some lsb => has <- processor_has_block rhs proc rsb ;; if (has : bool) then Some []
          else c <- send_chain O lhs rhs (rst rank) lsb rsb ;; Some (message proc c)
     | None => Some [] end) P (ok_pvec lhs Hl)) as (S & ES & NS & IS).
  { intros q Hq. destruct (Nat.eqb_spec q rank) as [->|Nq].
    { exists []. split; [reflexivity|]. split; [cbn; lia|]. intros q o. split; [intros []|].
      intros (_ & lsb & c & (X & _) & _). congruence. }
    destruct (a_subblock lhs q) as [lsb|] eqn:El.
    2:{ exists []. split; [reflexivity|]. split; [cbn; lia|]. intros q' o. split; [intros []|].
        intros (_ & lsb & c & (_ & _ & _ & X & _) & _). congruence. }
    destruct (a_has rhs Hr rsb q Kr) as (b & Eb & Ib). rewrite Eb. cbn [bind]. destruct b.
    { exists []. split; [reflexivity|]. split; [cbn; lia|]. intros q' o. split; [intros []|].
      intros (_ & lsb' & c & (_ & _ & _ & _ & X & _) & _). exfalso. apply X, Ib; reflexivity. }
    pose proof (a_valid lhs Hl _ _ El) as Kl.
    destruct (send_chain_ok (rst rank) lsb rsb Kl Kr (Lr rank)) as (c & Ec & Fc). rewrite Ec. cbn [bind].
    destruct (message_spec q c _ _ Fc) as (M1 & M2). exists (message q c). split; [reflexivity|]. split; [exact M1|].
    intros q' o. rewrite M2. split.
    - intros (-> & Nc & ->). split; [reflexivity|]. exists lsb, c. split; [|auto].
      repeat split; auto.
      + intros X. assert (false = true) by (apply Ib; exact X). discriminate.
      + intros X. apply Nc. rewrite X in Fc. inversion Fc. reflexivity.
    - intros (-> & lsb' & c' & (_ & _ & _ & X & _ & Y) & Z & ->). assert (lsb' = lsb) by congruence; subst lsb'.
      assert (c' = c) by congruence; subst c'. repeat split. intros ->. apply Y. inversion Fc. reflexivity. }
  exists S. split; [exact ES|]. split; [exact NS|]. split.
  - intros q o I. apply IS in I as (_ & lsb & c & T & Ec & ->). exists rsb, lsb. split; [exact T|].
    pose proof (proj1 (proj2 (proj2 (proj2 T)))) as El. pose proof (a_valid lhs Hl _ _ El) as Kl.
    destruct (send_chain_ok (rst rank) lsb rsb Kl Kr (Lr rank)) as (c' & Ec' & Fc).
    assert (c' = c) by congruence; subst c'. apply F2_concat, Fc.
  - intros q rsb' lsb T. assert (rsb' = rsb) by (destruct T as (_ & X & _); congruence); subst rsb'.
    pose proof (proj1 (proj2 (proj2 (proj2 T)))) as El. pose proof (a_valid lhs Hl _ _ El) as Kl.
    destruct (send_chain_ok (rst rank) lsb rsb Kl Kr (Lr rank)) as (c & Ec & Fc).
    apply in_map_iff. exists (q, concat c). split; [reflexivity|]. apply IS. split.
    + apply (a_sub_iff lhs Hl). eauto.
    + exists lsb, c. auto.
Qed.

Lemma recv_list rank : exists R, build_recv_list O lhs rhs (lst rank) rank = Some R /\ NoDup (map fst R) /\
  (forall p o, In (p, o) R -> exists rsb lsb, talk p rank rsb lsb /\
     Forall2 (at_off lhs (lst rank) lsb) o (concat (grecs lsb rsb))) /\
  (forall p rsb lsb, talk p rank rsb lsb -> In p (map fst R)).
Proof using All.
  unfold build_recv_list. destruct (a_subblock lhs rank) as [lsb|] eqn:El.
  2:{ exists []. split; [reflexivity|]. split; [constructor|]. split; [intros q o []|].
      intros q rsb lsb (_ & _ & _ & X & _). congruence. }
  pose proof (a_valid lhs Hl _ _ El) as Kl.
  set (P := fun p o => exists rsb c, talk p rank rsb lsb /\ recv_chain O lhs rhs (lst rank) lsb rsb = Some c /\ o = concat c).
  rewrite (a_ranks_eq rhs Hr).
  destruct (collectL_msgs (a_pvec rhs) (fun proc =>
     if proc =? rank then Some [] else match a_subblock rhs proc with
     | Some rsb => f <- a_first rhs rsb ;; if f =? proc then
            has <- processor_has_block rhs rank rsb ;; if (has : bool) then Some []
            else c <- recv_chain O lhs rhs (lst rank) lsb rsb ;; Some (message proc c)
          else Some []
     | None => Some [] end) P (ok_pvec rhs Hr)) as (S & ES & NS & IS).
  { intros p Hp. destruct (Nat.eqb_spec p rank) as [->|Np].
    { exists []. split; [reflexivity|]. split; [cbn; lia|]. intros q o. split; [intros []|].
      intros (_ & rsb & c & (X & _) & _). congruence. }
    destruct (a_subblock rhs p) as [rsb|] eqn:Er.
    2:{ exists []. split; [reflexivity|]. split; [cbn; lia|]. intros q' o. split; [intros []|].
        intros (_ & rsb & c & (_ & X & _) & _). congruence. }
    pose proof (a_valid rhs Hr _ _ Er) as Kr.
    destruct (a_procs rhs Hr rsb Kr) as (pl & f & _ & Ef & _). rewrite Ef. cbn [bind].
    destruct (Nat.eqb_spec f p) as [->|Nf].
    2:{ exists []. split; [reflexivity|]. split; [cbn; lia|]. intros q' o. split; [intros []|].
        intros (_ & rsb' & c & (_ & X & Y & _) & _). congruence. }
    destruct (a_has rhs Hr rsb rank Kr) as (b & Eb & Ib). rewrite Eb. cbn [bind]. destruct b.
    { exists []. split; [reflexivity|]. split; [cbn; lia|]. intros q' o. split; [intros []|].
      intros (_ & rsb' & c & (_ & Z & _ & _ & X & _) & _). exfalso. assert (rsb' = rsb) by congruence. subst rsb'. apply X, Ib; reflexivity. }
    destruct (recv_chain_ok (lst rank) lsb rsb Kl Kr (Ll rank)) as (c & Ec & Fc). rewrite Ec. cbn [bind].
    destruct (message_spec p c _ _ Fc) as (M1 & M2). exists (message p c). split; [reflexivity|]. split; [exact M1|].
    intros q' o. rewrite M2. split.
    - intros (-> & Nc & ->). split; [reflexivity|]. exists rsb, c. split; [|auto].
      repeat split; auto.
      + intros X. assert (false = true) by (apply Ib; exact X). discriminate.
      + intros X. apply Nc. rewrite X in Fc. inversion Fc. reflexivity.
    - intros (-> & rsb' & c' & (_ & X & _ & _ & _ & Y) & Z & ->). assert (rsb' = rsb) by congruence; subst rsb'.
      assert (c' = c) by congruence; subst c'. repeat split. intros ->. apply Y. inversion Fc. reflexivity. }
  exists S. split; [exact ES|]. split; [exact NS|]. split.
  - intros q o I. apply IS in I as (_ & rsb & c & T & Ec & ->). exists rsb, lsb. split; [exact T|].
    pose proof (proj1 (proj2 T)) as Er. pose proof (a_valid rhs Hr _ _ Er) as Kr.
    destruct (recv_chain_ok (lst rank) lsb rsb Kl Kr (Ll rank)) as (c' & Ec' & Fc).
    assert (c' = c) by congruence; subst c'. apply F2_concat, Fc.
  - intros p rsb lsb' T. assert (lsb' = lsb) by (destruct T as (_ & _ & _ & X & _); congruence); subst lsb'.
    pose proof (proj1 (proj2 T)) as Er. pose proof (a_valid rhs Hr _ _ Er) as Kr.
    destruct (recv_chain_ok (lst rank) lsb rsb Kl Kr (Ll rank)) as (c & Ec & Fc).
    apply in_map_iff. exists (p, concat c). split; [reflexivity|]. apply IS. split.
    + apply (a_sub_iff rhs Hr). eauto.
    + exists rsb, c. auto.
Qed.

Lemma copy_list rank : exists c cs G, build_copy_list lhs rhs rank = Some c /\
  collectL c (copy_action O (rst rank) (lst rank)) = Some cs /\
  match a_subblock lhs rank, a_subblock rhs rank with
  | Some lsb, Some rsb => Forall2 (cact (rst rank) (lst rank) lsb rsb) cs G /\ concat G = concat (grecs lsb rsb)
  | _, _ => cs = []
  end.
Proof.
  unfold build_copy_list.
  destruct (a_subblock lhs rank) as [lsb|] eqn:El; [destruct (a_subblock rhs rank) as [rsb|] eqn:Er|].
  - apply copy_ok; auto; [apply (a_valid lhs Hl _ _ El)|apply (a_valid rhs Hr _ _ Er)].
  - exists [], [], []. auto.
  - exists [], [], []. auto.
Qed.
End Pair.

Section Final.
Variables (O : list nat) (lhs rhs : amap) (rst lst : nat -> list Z).
Hypothesis HO : order_valid (length (a_dims lhs)) O = true.
Hypothesis Hl : amap_ok lhs.
Hypothesis Hr : amap_ok rhs.
Hypothesis HE : a_ext lhs = a_ext rhs.
Hypothesis Lr : forall r, length (rst r) = length (a_dims lhs).
Hypothesis Ll : forall r, length (lst r) = length (a_dims lhs).

Lemma dlen_ext : length (a_ext lhs) = length (a_dims lhs).
Proof. unfold a_ext, ext_of. apply map_length. Qed.
Lemma HO' : order_valid (length (a_ext lhs)) O = true.
Proof. rewrite dlen_ext. exact HO. Qed.
Lemma Lr' : forall r, length (rst r) = length (a_ext lhs).
Proof. intros. rewrite dlen_ext. apply Lr. Qed.
Lemma Ll' : forall r, length (lst r) = length (a_ext lhs).
Proof. intros. rewrite dlen_ext. apply Ll. Qed.

Lemma F2_element a st pr sb o gs : a_subblock a pr = Some sb -> Forall2 (at_off a (st pr) sb) o gs ->
  Forall2 (element_at a st pr) o gs.
Proof.
  intros E. induction 1 as [|x g o gs H _ IH]; constructor; [|exact IH].
  destruct H as (ext & l & A & B & C & D). exists sb, ext, l. auto.
Qed.

Lemma messages_lemma p q : exists S R,
  build_send_list O lhs rhs (rst p) p = Some S /\ build_recv_list O lhs rhs (lst q) q = Some R /\
  NoDup (map fst S) /\ NoDup (map fst R) /\
  ((exists o, In (q, o) S) <-> (exists o, In (p, o) R)) /\
  (forall o o', In (q, o) S -> In (p, o') R -> exists gs, NoDup gs /\
     Forall2 (element_at rhs rst p) o gs /\ Forall2 (element_at lhs lst q) o' gs).
Proof.
  destruct (send_list O lhs rhs Hl Hr HE HO' rst lst Lr' Ll' p) as (S & ES & NS & IS & JS).
  destruct (recv_list O lhs rhs Hl Hr HE HO' rst lst Lr' Ll' q) as (R & ER & NR & IR & JR).
  exists S, R. repeat split; auto.
  - intros (o & I). apply IS in I as (rsb & lsb & T & _). apply JR in T. apply in_map_iff in T as ([p' o'] & E & T).
    cbn in E; subst. eauto.
  - intros (o & I). apply IR in I as (rsb & lsb & T & _). apply JS in T. apply in_map_iff in T as ([p' o'] & E & T).
    cbn in E; subst. eauto.
  - intros o o' I I'. apply IS in I as (rsb & lsb & T & F). apply IR in I' as (rsb' & lsb' & T' & F').
    destruct T as (N & A & B & C & D & E). destruct T' as (_ & A' & _ & C' & _).
    assert (rsb' = rsb /\ lsb' = lsb) as [-> ->] by (split; congruence).
    exists (concat (grecs O lhs rhs lsb rsb)). split; [|split].
    + apply (grecs_nodup O lhs rhs Hl Hr HE HO'); [apply (a_valid lhs Hl _ _ C)|apply (a_valid rhs Hr _ _ A)].
    + eapply F2_element; eassumption.
    + eapply F2_element; eassumption.
Qed.

Context {V : Type} (rmem lmem0 : nat -> Z -> V) (X : list nat -> V).
Hypothesis OC : forall r sb ext, a_subblock lhs r = Some sb -> a_lext lhs sb = Some ext -> own_cell ext (lst r).
Hypothesis HR : forall r, holds rhs rst rmem X r.

Definition oval {A} (o : option (list A)) : list A := match o with Some l => l | None => [] end.
Definition sS r := oval (build_send_list O lhs rhs (rst r) r).
Definition sR r := oval (build_recv_list O lhs rhs (lst r) r).
Definition sC r := oval (c <- build_copy_list lhs rhs r ;; collectL c (copy_action O (rst r) (lst r))).
Definition sM (p q : nat) : list V :=
  match a_subblock rhs p, a_subblock lhs q with
  | Some rsb, Some lsb => map X (concat (grecs O lhs rhs lsb rsb))
  | _, _ => []
  end.
Definition sU := nodup Nat.eq_dec (a_pvec lhs ++ a_pvec rhs).

Lemma read_rhs p rsb o gs : a_subblock rhs p = Some rsb -> Forall2 (at_off rhs (rst p) rsb) o gs ->
  map (rmem p) o = map X gs.
Proof.
  intros E. induction 1 as [|x g o gs H _ IH]; [reflexivity|]. cbn [map]. f_equal; [|exact IH].
  destruct H as (ext & l & A & B & C & ->). eapply HR; eassumption.
Qed.

Lemma prog_ok r : program O lhs rhs (rst r) (lst r) r = Some (PP sS sR sC r).
Proof.
  unfold program, PP, sS, sR, sC.
  destruct (send_list O lhs rhs Hl Hr HE HO' rst lst Lr' Ll' r) as (S & -> & _).
  destruct (recv_list O lhs rhs Hl Hr HE HO' rst lst Lr' Ll' r) as (R & -> & _).
  destruct (copy_list O lhs rhs Hl Hr HE HO' rst lst Lr' Ll' r) as (c & cs & G & -> & E & _).
  cbn [bind oval]. rewrite E. reflexivity.
Qed.

Lemma copies r a : In a (sC r) -> exists f t lsb rsb gs, a = ACopy f t /\ a_subblock lhs r = Some lsb /\
  a_subblock rhs r = Some rsb /\
  Forall2 (at_off rhs (rst r) rsb) f gs /\ Forall2 (at_off lhs (lst r) lsb) t gs.
Proof.
  unfold sC. destruct (copy_list O lhs rhs Hl Hr HE HO' rst lst Lr' Ll' r) as (c & cs & G & -> & E & M).
  cbn [bind]. rewrite E. cbn [oval]. clear E.
  destruct (a_subblock lhs r) as [lsb|]; [destruct (a_subblock rhs r) as [rsb|]|]; try (subst; intros []; fail).
  destruct M as [M _]. induction M as [|x gs cs' G' (f & t & -> & A & B) _ IH]; [intros []|].
  intros [<-|I]; [|exact (IH I)]. exists f, t, lsb, rsb, gs. auto.
Qed.

Lemma sends_sR r q o : In (q, o) (sR r) -> exists lsb rsb, a_subblock lhs r = Some lsb /\ a_subblock rhs q = Some rsb /\
  Forall2 (at_off lhs (lst r) lsb) o (concat (grecs O lhs rhs lsb rsb)).
Proof.
  unfold sR. destruct (recv_list O lhs rhs Hl Hr HE HO' rst lst Lr' Ll' r) as (R & -> & _ & I & _). cbn [oval].
  intros H. apply I in H as (rsb & lsb & (_ & A & _ & B & _) & F). exists lsb, rsb. auto.
Qed.

Lemma F2_in_combine {A B C} (Q : A -> C -> Prop) (f : C -> B) l gs x v : Forall2 Q l gs ->
  In (x, v) (combine l (map f gs)) -> exists g, Q x g /\ v = f g /\ In g gs.
Proof.
  induction 1 as [|a g l gs H _ IH]; cbn; [intros []|].
  intros [[= <- <-]|I]; [exists g; auto|]. destruct (IH I) as (g' & ? & ? & ?). exists g'. auto.
Qed.
Lemma F2_combine_in {A B C} (Q : A -> C -> Prop) (f : C -> B) l gs g : Forall2 Q l gs ->
  In g gs -> exists x, Q x g /\ In (x, f g) (combine l (map f gs)).
Proof.
  induction 1 as [|a g' l gs H _ IH]; cbn; [intros []|].
  intros [<-|I]; [exists a; auto|]. destruct (IH I) as (x & ? & ?). exists x. auto.
Qed.

(** Every write puts the right value at the right place. *)
Lemma write_ok r x v : In (x, v) (flat_map (writes rmem sM r) (PP sS sR sC r)) ->
  exists lsb g, a_subblock lhs r = Some lsb /\ at_off lhs (lst r) lsb x g /\ v = X g.
Proof.
  intros H. apply in_flat_map in H as (a & Ha & Hw). unfold PP in Ha. rewrite !in_app_iff in Ha.
  destruct Ha as [Ha|[Ha|[Ha|Ha]]].
  - apply in_map_iff in Ha as (y & <- & _). destruct Hw.
  - apply copies in Ha as (f & t & lsb & rsb & gs & -> & El & Er & F1 & F2). cbn [writes] in Hw.
    rewrite (read_rhs r rsb f gs Er F1) in Hw.
    apply (F2_in_combine _ _ _ _ _ _ F2) in Hw as (g & A & B & _). exists lsb, g. auto.
  - apply in_map_iff in Ha as ([p o] & <- & Ha). cbn [fst snd writes] in Hw.
    apply sends_sR in Ha as (lsb & rsb & El & Er & F). unfold sM in Hw. rewrite Er, El in Hw.
    apply (F2_in_combine _ _ _ _ _ _ F) in Hw as (g & A & B & _). exists lsb, g. auto.
  - apply in_map_iff in Ha as (y & <- & _). destruct Hw.
Qed.

(** Every owned element is written. *)
Lemma write_all r lsb o g : a_subblock lhs r = Some lsb -> at_off lhs (lst r) lsb o g ->
  exists v, In (o, v) (flat_map (writes rmem sM r) (PP sS sR sC r)).
Proof.
  intros El A. pose proof (a_valid lhs Hl _ _ El) as Kl.
  pose proof (at_off_inS lhs Hl _ _ _ _ A) as IL.
  assert (IR : exists rsb, rsb < map_num_subblocks (a_dims rhs) /\ inS rhs rsb g).
  { destruct IL as [I _]. destruct (mp_home _ (mp rhs Hr) g) as (rsb & p & l & ext & B & C & _).
    { unfold a_ext in HE. rewrite <- HE. exact I. }
    exists rsb. split; [exact C|]. split; [rewrite <- HE; exact I|exact B]. }
  destruct IR as (rsb & Kr & IR).
  assert (Ig : In g (concat (grecs O lhs rhs lsb rsb))).
  { apply (grecs_in O lhs rhs Hl Hr HE HO' lsb rsb g Kl Kr). auto. }
  destruct (a_has rhs Hr rsb r Kr) as (b & _ & Ib). destruct b.
  - assert (Er : a_subblock rhs r = Some rsb) by (apply Ib; reflexivity).
    destruct (copy_list O lhs rhs Hl Hr HE HO' rst lst Lr' Ll' r) as (c & cs & G & Ec & Ecs & M).
    rewrite El, Er in M. destruct M as [M MG]. rewrite <- MG in Ig.
    assert (EC : sC r = cs) by (unfold sC; rewrite Ec; cbn [bind]; rewrite Ecs; reflexivity).
    assert (W : exists v, In (o, v) (flat_map (writes rmem sM r) cs)).
    { clear -M Ig A HR Er Hl. induction M as [|x gs cs G (f & t & -> & F1 & F2) _ IH]; [destruct Ig|].
      cbn [concat flat_map] in *. apply in_app_iff in Ig as [Ig|Ig].
      - destruct (F2_combine_in _ X _ _ _ F2 Ig) as (x & Q & J). exists (X g).
        apply in_or_app; left. cbn [writes]. rewrite (read_rhs r rsb f gs Er F1).
        rewrite (at_off_fun lhs Hl _ _ _ _ _ A Q). exact J.
      - destruct (IH Ig) as (v & J). exists v. apply in_or_app; right; exact J. }
    destruct W as (v & W). exists v. unfold PP. rewrite EC, !flat_map_app, !in_app_iff. auto.
  - destruct (a_procs rhs Hr rsb Kr) as (pl & p & _ & Ef & Ip & Iff). apply Iff in Ip.
    assert (NE : a_subblock rhs r <> Some rsb) by (intros E; apply Ib in E; discriminate).
    assert (T : talk O lhs rhs p r rsb lsb).
    { repeat split; auto. intros ->. contradiction. intros E. rewrite E in Ig. destruct Ig. }
    destruct (recv_list O lhs rhs Hl Hr HE HO' rst lst Lr' Ll' r) as (R & ER & _ & I1 & I2).
    apply I2 in T. apply in_map_iff in T as ([p' ofs] & E & T). cbn in E; subst p'.
    assert (T' : In (p, ofs) (sR r)) by (unfold sR; rewrite ER; exact T).
    destruct (sends_sR r p ofs T') as (lsb' & rsb' & E1 & E2 & F).
    assert (lsb' = lsb /\ rsb' = rsb) as [-> ->] by (split; congruence).
    destruct (F2_combine_in _ X _ _ _ F Ig) as (x & Q & J). exists (X g).
    rewrite (at_off_fun lhs Hl _ _ _ _ _ A Q).
    apply in_flat_map. exists (ARecv p ofs). split.
    + unfold PP. rewrite !in_app_iff. right; right; left. apply in_map_iff. exists (p, ofs). auto.
    + cbn [writes]. unfold sM. rewrite Ip, El. exact J.
Qed.

Lemma assign_lemma : exists P N, (forall r, program O lhs rhs (rst r) (lst r) r = Some (P r)) /\
  forall n s, steps rmem n {| prog := P; lmem := lmem0; chan := fun _ _ => [] |} s ->
    n <= N /\
    (forall r o, (forall g, ~ element_at lhs lst r o g) -> lmem s r o = lmem0 r o) /\
    ((exists t, step rmem s t) \/
     ((forall r, prog s r = []) /\ (forall p q, chan s p q = []) /\
      forall r, holds lhs lst (lmem s) X r)).
Proof.
  exists (PP sS sR sC), (list_sum (map (fun r => length (PP sS sR sC r)) sU)). split; [exact prog_ok|].
  intros n s H.
  destruct (sys_lemma rmem lmem0 sS sR sC sM sU) with (n := n) (s := s) as (A & (pre & B) & C); auto.
  - apply NoDup_nodup.
  - intros r a I. apply copies in I as (f & t & lsb & rsb & gs & -> & _). eauto.
  - intros r. unfold sS. destruct (send_list O lhs rhs Hl Hr HE HO' rst lst Lr' Ll' r) as (S & -> & N & _). exact N.
  - intros r q o. unfold sS. destruct (send_list O lhs rhs Hl Hr HE HO' rst lst Lr' Ll' r) as (S & -> & _ & I & _).
    cbn [oval]. intros J. apply I in J as (rsb & lsb & (_ & Er & _ & El & _) & F).
    unfold sM. rewrite Er, El. apply (read_rhs r rsb); assumption.
  - intros r. unfold sR. destruct (recv_list O lhs rhs Hl Hr HE HO' rst lst Lr' Ll' r) as (S & -> & N & _). exact N.
  - intros r p o J. apply sends_sR in J as (lsb & rsb & El & Er & F). unfold sM. rewrite Er, El, map_length.
    apply F2_len in F. exact F.
  - intros p q. unfold sS, sR.
    destruct (send_list O lhs rhs Hl Hr HE HO' rst lst Lr' Ll' p) as (S & -> & _ & IS & JS).
    destruct (recv_list O lhs rhs Hl Hr HE HO' rst lst Lr' Ll' q) as (R & -> & _ & IR & JR). cbn [oval]. split; intros I.
    + apply in_map_iff in I as ([q' o] & E & I). cbn in E; subst q'. apply IS in I as (rsb & lsb & T & _).
      eapply JR; exact T.
    + apply in_map_iff in I as ([q' o] & E & I). cbn in E; subst q'. apply IR in I as (rsb & lsb & T & _).
      eapply JS; exact T.
  - intros r Nr. assert (Nl : a_subblock lhs r = None).
    { destruct (a_subblock lhs r) as [sb|] eqn:E; [|reflexivity]. exfalso. apply Nr. unfold sU. apply nodup_In, in_or_app.
      left. apply (a_sub_iff lhs Hl). eauto. }
    assert (Nrr : a_subblock rhs r = None).
    { destruct (a_subblock rhs r) as [sb|] eqn:E; [|reflexivity]. exfalso. apply Nr. unfold sU. apply nodup_In, in_or_app.
      right. apply (a_sub_iff rhs Hr). eauto. }
    unfold PP, sS, sR, sC, build_send_list, build_recv_list, build_copy_list. rewrite Nl, Nrr. reflexivity.
  - split; [exact A|]. split.
    + intros r o No. destruct (B r) as ((suf & E) & M). rewrite M. apply wrs_other. intros v I.
      destruct (write_ok r o v) as (lsb & g & El & (ext & l & X1 & X2 & X3 & X4) & _).
      { rewrite E, flat_map_app. apply in_or_app; left; exact I. }
      apply (No g). exists lsb, ext, l. auto.
    + destruct C as [C|(C1 & C2 & C3)]; [left; exact C|right]. split; [exact C1|]. split; [exact C2|].
      intros r sb ext l g El Ex Hx Eg. rewrite C3.
      assert (AT : at_off lhs (lst r) sb (off (lst r) l) g) by (exists ext, l; auto).
      apply wrs_hit; [apply (write_all r sb _ g El AT)|].
      intros v I. apply write_ok in I as (lsb & g' & El' & AT' & ->).
      assert (lsb = sb) by congruence; subst lsb.
      f_equal. symmetry. eapply (at_off_inj lhs (lst r) sb ext); eauto.
Qed.
End Final.
