(** Lemmas about plain block-to-block assignment. *)
From Coq Require Import ZArith List Lia Bool Arith.
From Verif Require Import Base LoopLemmas Copy.
Import ListNotations.
Local Open Scope nat_scope.

Section CopyProofs.
Context {V : Type}.
Implicit Types m : mem V.

(** Element copies in any order. *)
Lemma enum_assigned2 (E : list (nat * nat)) (l r : dv2) m :
  NoDup E -> (forall i j, In (i, j) E <-> i < n2_0 l /\ j < n2_1 l) ->
  own2 m l -> readable2 m r -> conform2 l r -> apart2 l r \/ same2 l r ->
  exists m', foldM (cp (fun x => x)) (map (fun ij => (at2 l (fst ij) (snd ij), at2 r (fst ij) (snd ij))) E) m = Some m'
             /\ assigned2 l r m m'.
Proof.
  intros ND HE [HO HI] HR [C0 C1] HA.
  destruct (copies_ok (fun x => x) (map (fun ij => (at2 l (fst ij) (snd ij), at2 r (fst ij) (snd ij))) E) m)
    as (m' & E1 & Q1 & Q2).
  - rewrite map_map. simpl. apply NoDup_map_in; [exact ND|].
    intros [i j] [i' j'] H1 H2 K. simpl in K. apply HE in H1, H2.
    destruct (HI i j i' j') as [-> ->]; tauto.
  - intros d s K. apply in_map_iff in K. destruct K as ([i j] & K & H). simpl in K. inversion K; subst d s.
    apply HE in H. split; [apply HO; tauto|]. apply HR; lia.
  - intros d s d' s' K K' Es. apply in_map_iff in K, K'.
    destruct K as ([i j] & K & H), K' as ([i' j'] & K' & H'). simpl in K, K'.
    inversion K; subst d s; inversion K'; subst d' s'. apply HE in H, H'.
    destruct HA as [HA|(A0 & A1 & A2)].
    + exfalso. apply (HA i' j' i j); try tauto; try lia; congruence.
    + unfold at2 in *. congruence.
  - exists m'. split; [exact E1|]. split.
    + intros i j Hi Hj. destruct (Q1 (at2 l i j) (at2 r i j)) as (x & X1 & X2).
      { apply in_map_iff. exists (i, j). split; [reflexivity|]. apply HE; auto. }
      exists x. auto.
    + intros a Ha. apply Q2. rewrite map_map. intros K. apply in_map_iff in K.
      destruct K as ([i j] & K & H). simpl in K. apply HE in H. apply (Ha i j); [tauto|tauto|congruence].
Qed.

(** memcpy as a sequence of element copies. *)
Lemma memcpy_copies m d s n :
  (d = s \/ d + Z.of_nat n <= s \/ s + Z.of_nat n <= d)%Z ->
  memcpy m d s n = foldM (cp (fun x => x)) (map (fun k => (d + Z.of_nat k, s + Z.of_nat k)%Z) (seq 0 n)) m.
Proof.
  intros H. unfold memcpy.
  destruct ((d =? s)%Z || (d + Z.of_nat n <=? s)%Z || (s + Z.of_nat n <=? d)%Z) eqn:E.
  - rewrite loop_foldM, <- foldM_map. reflexivity.
  - exfalso. apply orb_false_iff in E. destruct E as [E E3]. apply orb_false_iff in E. destruct E as [E1 E2].
    apply Z.eqb_neq in E1. apply Z.leb_gt in E2, E3. lia.
Qed.

(** Contiguous ranges that share no cell do not overlap. *)
Lemma ranges_apart (d s : Z) (n : nat) :
  (forall i j, i < n -> j < n -> (d + Z.of_nat i <> s + Z.of_nat j)%Z) ->
  (d = s \/ d + Z.of_nat n <= s \/ s + Z.of_nat n <= d)%Z.
Proof.
  intros H. destruct n as [|n].
  - destruct (Z.le_gt_cases d s); lia.
  - destruct (Z.le_gt_cases (d + Z.of_nat (S n)) s) as [|G1]; [auto|].
    destruct (Z.le_gt_cases (s + Z.of_nat (S n)) d) as [|G2]; [auto|].
    exfalso. destruct (Z.le_gt_cases d s) as [L|L].
    + apply (H (Z.to_nat (s - d)) 0); try lia.
    + apply (H 0 (Z.to_nat (d - s))); try lia.
Qed.

Lemma map_seq_pairs {X} (f : nat -> nat -> X) n k :
  map (fun ij => f (fst ij) (snd ij)) (pairs n k) = flat_map (fun i => map (f i) (seq 0 k)) (seq 0 n).
Proof.
  unfold pairs. induction (seq 0 n) as [|i r IH]; simpl; [reflexivity|].
  rewrite map_app, IH, map_map. reflexivity.
Qed.

Lemma seq_map_add k : forall o, seq o k = map (fun j => o + j) (seq 0 k).
Proof.
  induction k as [|k IH]; intros o; simpl; [reflexivity|].
  rewrite Nat.add_0_r. f_equal. rewrite IH, <- seq_shift, map_map. apply map_ext. intros; lia.
Qed.

Lemma seq_flat (n k : nat) : forall o, seq o (n * k) = flat_map (fun i => map (fun j => o + i * k + j) (seq 0 k)) (seq 0 n).
Proof.
  induction n as [|n IH]; intros o; [reflexivity|].
  rewrite Nat.mul_succ_l, Nat.add_comm, seq_app, IH. simpl. f_equal.
  - rewrite seq_map_add. apply map_ext. intros; lia.
  - rewrite <- seq_shift, flat_map_concat_map, flat_map_concat_map, map_map. f_equal. apply map_ext.
    intros a. apply map_ext. intros b. simpl. lia.
Qed.

(** The general strided copy, as element copies in row order. *)
Lemma copy_strided_copies m lhs lrs lcs rhs rrs rcs rows cols :
  (forall i j i' j', i < rows -> j < cols -> i' < rows -> j' < cols ->
     (lhs + Z.of_nat i * lrs + Z.of_nat j * lcs <> rhs + Z.of_nat i' * rrs + Z.of_nat j' * rcs)%Z) \/
  (lhs = rhs /\ lrs = rrs /\ lcs = rcs) ->
  copy_strided m lhs lrs lcs rhs rrs rcs rows cols =
  foldM (cp (fun x => x))
    (map (fun ij => (lhs + Z.of_nat (fst ij) * lrs + Z.of_nat (snd ij) * lcs,
                     rhs + Z.of_nat (fst ij) * rrs + Z.of_nat (snd ij) * rcs)%Z) (pairs rows cols)) m.
Proof.
  intros HA. unfold copy_strided.
  rewrite (map_seq_pairs (fun i j => (lhs + Z.of_nat i * lrs + Z.of_nat j * lcs, rhs + Z.of_nat i * rrs + Z.of_nat j * rcs)%Z)).
  destruct ((lcs =? 1)%Z && (rcs =? 1)%Z) eqn:EU.
  - apply andb_prop in EU. destruct EU as [U1 U2]. apply Z.eqb_eq in U1, U2. subst lcs rcs.
    destruct ((lrs =? Z.of_nat cols)%Z && (rrs =? Z.of_nat cols)%Z) eqn:ED.
    + apply andb_prop in ED. destruct ED as [D1 D2]. apply Z.eqb_eq in D1, D2. subst lrs rrs.
      rewrite memcpy_copies.
      * f_equal. rewrite (seq_flat rows cols 0). rewrite !flat_map_concat_map, concat_map, map_map. f_equal.
        apply map_ext. intros i. rewrite map_map. apply map_ext. intros j. f_equal; lia.
      * destruct HA as [HA|(-> & _)]; [|auto]. apply ranges_apart.
        intros i j Hi Hj K.
        assert (0 < cols) by (destruct cols; lia).
        apply (HA (i / cols) (i mod cols) (j / cols) (j mod cols)).
        -- apply Nat.div_lt_upper_bound; lia.
        -- apply Nat.mod_upper_bound; lia.
        -- apply Nat.div_lt_upper_bound; lia.
        -- apply Nat.mod_upper_bound; lia.
        -- assert (Ei := Nat.div_mod i cols ltac:(lia)). assert (Ej := Nat.div_mod j cols ltac:(lia)).
           assert (Zi : (Z.of_nat i = Z.of_nat (i / cols) * Z.of_nat cols + Z.of_nat (i mod cols))%Z)
             by (rewrite Ei at 1; rewrite Nat2Z.inj_add, Nat2Z.inj_mul; ring).
           assert (Zj : (Z.of_nat j = Z.of_nat (j / cols) * Z.of_nat cols + Z.of_nat (j mod cols))%Z)
             by (rewrite Ej at 1; rewrite Nat2Z.inj_add, Nat2Z.inj_mul; ring).
           rewrite Zi, Zj in K. lia.
    + pose proof (ptr_loop (fun m l r => memcpy m l r cols) lrs rrs lhs rhs rows 0 m) as PL.
      simpl Z.of_nat in PL. rewrite !Z.mul_0_l, !Z.add_0_r in PL. rewrite PL. clear PL.
      rewrite loop_foldM.
      rewrite <- (foldM_flat_map (cp (fun x => x)) (fun i => map (fun j => (lhs + Z.of_nat i * lrs + Z.of_nat j * 1, rhs + Z.of_nat i * rrs + Z.of_nat j * 1)%Z) (seq 0 cols))).
      erewrite foldM_ext.
      2:{ intros i t Hi. apply in_seq in Hi. rewrite memcpy_copies.
          - reflexivity.
          - destruct HA as [HA|(-> & -> & _)]; [|auto].
            apply ranges_apart. intros j j' Hj Hj' K. apply (HA i j i j'); try lia. }
      erewrite (foldM_ext (fun x s => foldM (cp (fun x0 => x0)) (map (fun j => (lhs + Z.of_nat x * lrs + Z.of_nat j * 1, rhs + Z.of_nat x * rrs + Z.of_nat j * 1)%Z) (seq 0 cols)) s)).
      2:{ intros i t _.
          rewrite (map_ext _ (fun k => (lhs + Z.of_nat i * lrs + Z.of_nat k, rhs + Z.of_nat i * rrs + Z.of_nat k)%Z))
            by (intros; f_equal; lia). reflexivity. }
      destruct (foldM _ (seq 0 rows) m); reflexivity.
  - clear EU HA.
    pose proof (ptr_loop (fun m l r =>
        s <- loop (fun _ s => let '(m, lr, rr) := s in
                          x <- mload m rr ;; m <- mstore m lr x ;; Some (m, (lr + lcs)%Z, (rr + rcs)%Z))
                         0 cols (m, l, r) ;; Some (fst (fst s))) lrs rrs lhs rhs rows 0 m) as PL.
    simpl Z.of_nat in PL. rewrite !Z.mul_0_l, !Z.add_0_r in PL.
    match goal with |- bind (loop ?f 0 rows ?s) _ = _ =>
      match type of PL with loop ?g _ _ _ = _ => rewrite (loop_ext f g rows 0 s) end end.
    2:{ intros j [[m1 l1] r1] _. destruct (loop _ 0 cols _) as [[[m2 l2] r2]|]; reflexivity. }
    rewrite PL. clear PL. rewrite loop_foldM.
    rewrite <- (foldM_flat_map (cp (fun x => x)) (fun i => map (fun j => (lhs + Z.of_nat i * lrs + Z.of_nat j * lcs, rhs + Z.of_nat i * rrs + Z.of_nat j * rcs)%Z) (seq 0 cols))).
    erewrite foldM_ext.
    2:{ intros i t _.
        pose proof (ptr_loop (fun m l r => x <- mload m r ;; mstore m l x) lcs rcs (lhs + Z.of_nat i * lrs)%Z (rhs + Z.of_nat i * rrs)%Z cols 0 t) as PL.
        simpl Z.of_nat in PL. rewrite !Z.mul_0_l, !Z.add_0_r in PL.
        match goal with |- bind (loop ?f 0 cols ?s) _ = _ =>
          match type of PL with loop ?g _ _ _ = _ => rewrite (loop_ext f g cols 0 s) end end.
        2:{ intros j [[m1 l1] r1] _. destruct (mload m1 r1); reflexivity. }
        rewrite PL. rewrite loop_foldM.
        instantiate (1 := fun i t => foldM (cp (fun x => x)) (map (fun j => (lhs + Z.of_nat i * lrs + Z.of_nat j * lcs, rhs + Z.of_nat i * rrs + Z.of_nat j * rcs)%Z) (seq 0 cols)) t).
        simpl. rewrite <- foldM_map. unfold cp; simpl.
        destruct (foldM _ (seq 0 cols) t); reflexivity. }
    destruct (foldM _ (seq 0 rows) m); reflexivity.
Qed.

(** ** The four order combinations *)
Definition swp (ij : nat * nat) : nat * nat := (snd ij, fst ij).
Lemma swp_enum n k : NoDup (map swp (pairs k n)) /\ forall i j, In (i, j) (map swp (pairs k n)) <-> i < n /\ j < k.
Proof.
  split.
  - apply NoDup_map_in; [apply NoDup_pairs|]. intros [a b] [c d] _ _ E. inversion E; reflexivity.
  - intros i j. rewrite in_map_iff. split.
    + intros ([a b] & E & H). inversion E; subst. apply in_pairs in H. tauto.
    + intros H. exists (j, i). split; [reflexivity|]. apply in_pairs. tauto.
Qed.

Lemma apart_rows (l r : dv2) : conform2 l r -> apart2 l r \/ same2 l r ->
  (forall i j i' j', i < n2_0 l -> j < n2_1 l -> i' < n2_0 l -> j' < n2_1 l ->
     (p2 l + Z.of_nat i * s2_0 l + Z.of_nat j * s2_1 l <> p2 r + Z.of_nat i' * s2_0 r + Z.of_nat j' * s2_1 r)%Z) \/
  (p2 l = p2 r /\ s2_0 l = s2_0 r /\ s2_1 l = s2_1 r).
Proof.
  intros [C0 C1] [H|H]; [left|right; exact H].
  intros i j i' j' Hi Hj Hi' Hj'. apply H; lia.
Qed.

Lemma copy_strided_ok l r m :
  own2 m l -> readable2 m r -> conform2 l r -> apart2 l r \/ same2 l r ->
  exists m', copy_strided m (p2 l) (s2_0 l) (s2_1 l) (p2 r) (s2_0 r) (s2_1 r) (n2_0 l) (n2_1 l) = Some m' /\ assigned2 l r m m'.
Proof.
  intros HO HR HC HA. rewrite copy_strided_copies by (apply apart_rows; assumption).
  apply (enum_assigned2 (pairs (n2_0 l) (n2_1 l)) l r m); auto using NoDup_pairs.
  intros; apply in_pairs.
Qed.

Lemma copy_strided_swapped_ok l r m :
  own2 m l -> readable2 m r -> conform2 l r -> apart2 l r \/ same2 l r ->
  exists m', copy_strided m (p2 l) (s2_1 l) (s2_0 l) (p2 r) (s2_1 r) (s2_0 r) (n2_1 l) (n2_0 l) = Some m' /\ assigned2 l r m m'.
Proof.
  intros HO HR HC HA. rewrite copy_strided_copies.
  2:{ destruct (apart_rows l r HC HA) as [K|K]; [left|right; tauto].
      intros i j i' j' Hi Hj Hi' Hj' E. apply (K j i j' i'); auto. lia. }
  destruct (enum_assigned2 (map swp (pairs (n2_1 l) (n2_0 l))) l r m) as (m' & E & Q); auto.
  - apply swp_enum.
  - apply swp_enum.
  - exists m'. split; [|exact Q]. rewrite <- E. rewrite map_map. f_equal. apply map_ext.
    intros [i j]. unfold at2; simpl. f_equal; lia.
Qed.

Lemma transpose_to_ok l r m :
  s2_0 l = 1%Z -> s2_1 r = 1%Z ->
  own2 m l -> readable2 m r -> conform2 l r -> apart2 l r \/ same2 l r ->
  exists m', transpose_to m (p2 l) (s2_1 l) (p2 r) (s2_0 r) (n2_0 l) (n2_1 l) = Some m' /\ assigned2 l r m m'.
Proof.
  intros U1 U2 HO HR HC HA. unfold transpose_to.
  rewrite (loop2_pairs (fun r0 c m => x <- mload m (p2 r + (Z.of_nat r0 * s2_0 r + Z.of_nat c))%Z ;;
      mstore m (p2 l + (Z.of_nat r0 + Z.of_nat c * s2_1 l))%Z x)).
  destruct (enum_assigned2 (pairs (n2_0 l) (n2_1 l)) l r m) as (m' & E & Q); auto using NoDup_pairs.
  - intros; apply in_pairs.
  - exists m'. split; [|exact Q]. rewrite <- E, <- foldM_map. apply foldM_ext.
    intros [i j] t _. unfold cp, at2; simpl.
    replace (p2 r + Z.of_nat i * s2_0 r + Z.of_nat j * s2_1 r)%Z with (p2 r + (Z.of_nat i * s2_0 r + Z.of_nat j))%Z by lia.
    replace (p2 l + Z.of_nat i * s2_0 l + Z.of_nat j * s2_1 l)%Z with (p2 l + (Z.of_nat i + Z.of_nat j * s2_1 l))%Z by lia.
    reflexivity.
Qed.

Lemma transpose_to_swapped_ok l r m :
  s2_1 l = 1%Z -> s2_0 r = 1%Z ->
  own2 m l -> readable2 m r -> conform2 l r -> apart2 l r \/ same2 l r ->
  exists m', transpose_to m (p2 l) (s2_0 l) (p2 r) (s2_1 r) (n2_1 l) (n2_0 l) = Some m' /\ assigned2 l r m m'.
Proof.
  intros U1 U2 HO HR HC HA. unfold transpose_to.
  rewrite (loop2_pairs (fun r0 c m => x <- mload m (p2 r + (Z.of_nat r0 * s2_1 r + Z.of_nat c))%Z ;;
      mstore m (p2 l + (Z.of_nat r0 + Z.of_nat c * s2_0 l))%Z x)).
  destruct (enum_assigned2 (map swp (pairs (n2_1 l) (n2_0 l))) l r m) as (m' & E & Q); auto.
  - apply swp_enum.
  - apply swp_enum.
  - exists m'. split; [|exact Q]. rewrite <- E, map_map, <- foldM_map. apply foldM_ext.
    intros [i j] t _. unfold cp, at2; simpl.
    replace (p2 r + Z.of_nat j * s2_0 r + Z.of_nat i * s2_1 r)%Z with (p2 r + (Z.of_nat i * s2_1 r + Z.of_nat j))%Z by lia.
    replace (p2 l + Z.of_nat j * s2_0 l + Z.of_nat i * s2_1 l)%Z with (p2 l + (Z.of_nat i + Z.of_nat j * s2_0 l))%Z by lia.
    reflexivity.
Qed.

(** ** In-place transpose: the swap of (i,j) and (j,i) for every i <= j. *)
Lemma in_place_ok (l : dv2) m :
  n2_0 l = n2_1 l -> own2 m l ->
  exists m', transpose_in_place m (p2 l) (s2_0 l) (s2_1 l) (n2_0 l) (n2_1 l) = Some m' /\
    (forall i j, i < n2_0 l -> j < n2_1 l -> m' (at2 l i j) = m (at2 l j i)) /\
    (forall a, (forall i j, i < n2_0 l -> j < n2_1 l -> a <> at2 l i j) -> m' a = m a).
Proof.
  intros Hsq [HO HI]. rewrite <- Hsq in *. set (n := n2_0 l) in *.
  unfold transpose_in_place.
  set (swapped := fun (I J : nat) (t : mem V) =>
    (forall i j, i < n -> j < n ->
       t (at2 l i j) = if ((i <? I) || (j <? I) || ((i =? I) && (j <? J)) || ((j =? I) && (i <? J)))
                       then m (at2 l j i) else m (at2 l i j)) /\
    (forall a, (forall i j, i < n -> j < n -> a <> at2 l i j) -> t a = m a)).
  destruct (loop_inv (fun i m0 => loop (fun j m1 =>
      let a := (p2 l + (s2_1 l * Z.of_nat i + s2_0 l * Z.of_nat j))%Z in
      let b := (p2 l + (s2_1 l * Z.of_nat j + s2_0 l * Z.of_nat i))%Z in
      x <- mload m1 a ;; y <- mload m1 b ;;
      m2 <- mstore m1 a y ;; mstore m2 b x) i (n - i) m0)
    (fun i t => swapped i i t) n 0 m) as (m' & E & Q).
  - split; [|reflexivity]. intros i j _ _.
    replace ((i <? 0) || (j <? 0) || (i =? 0) && (j <? 0) || (j =? 0) && (i <? 0)) with false; [reflexivity|].
    rewrite !andb_false_r. reflexivity.
  - intros I t HI' HT. rewrite Nat.add_0_l in HI'.
    destruct (loop_inv (fun j m1 =>
      let a := (p2 l + (s2_1 l * Z.of_nat I + s2_0 l * Z.of_nat j))%Z in
      let b := (p2 l + (s2_1 l * Z.of_nat j + s2_0 l * Z.of_nat I))%Z in
      x <- mload m1 a ;; y <- mload m1 b ;;
      m2 <- mstore m1 a y ;; mstore m2 b x) (fun j t => swapped I j t) (n - I) I t HT) as (t' & E' & Q').
    + intros J u HJ [U1 U2]. cbv zeta.
      replace (p2 l + (s2_1 l * Z.of_nat I + s2_0 l * Z.of_nat J))%Z with (at2 l J I) by (unfold at2; lia).
      replace (p2 l + (s2_1 l * Z.of_nat J + s2_0 l * Z.of_nat I))%Z with (at2 l I J) by (unfold at2; lia).
      unfold mload, mstore.
      assert (EA : u (at2 l J I) = m (at2 l J I)).
      { rewrite U1 by lia.
        replace ((J <? I) || (I <? I) || (J =? I) && (I <? J) || (I =? I) && (J <? J)) with false; [reflexivity|].
        destruct (Nat.ltb_spec J I), (Nat.ltb_spec I I), (Nat.eqb_spec J I), (Nat.ltb_spec I J), (Nat.ltb_spec J J); try lia; simpl; rewrite ?andb_false_r; reflexivity. }
      assert (EB : u (at2 l I J) = m (at2 l I J)).
      { rewrite U1 by lia.
        replace ((I <? I) || (J <? I) || (I =? I) && (J <? J) || (J =? I) && (I <? J)) with false; [reflexivity|].
        destruct (Nat.ltb_spec J I), (Nat.ltb_spec I I), (Nat.eqb_spec J I), (Nat.ltb_spec I J), (Nat.ltb_spec J J); try lia; simpl; rewrite ?andb_false_r; reflexivity. }
      rewrite EA, EB.
      destruct (m (at2 l J I)) as [x|] eqn:Ex; [|exfalso; apply (HO J I); lia || assumption].
      destruct (m (at2 l I J)) as [y|] eqn:Ey; [|exfalso; apply (HO I J); lia || assumption].
      simpl.
      assert (EC : mupd u (at2 l J I) y (at2 l I J) <> None).
      { unfold mupd. destruct (Z.eqb_spec (at2 l I J) (at2 l J I)); [discriminate|]. rewrite EB. discriminate. }
      destruct (mupd u (at2 l J I) y (at2 l I J)) as [z|] eqn:Ez; [|congruence].
      eexists; split; [reflexivity|]. split.
      * intros i j Hi Hj.
        assert (KA : forall p q, p < n -> q < n -> (at2 l i j =? at2 l p q)%Z = (i =? p) && (j =? q)).
        { intros p q Hp Hq. destruct (Z.eqb_spec (at2 l i j) (at2 l p q)) as [K|K].
          - assert (K2 : i = p /\ j = q) by (apply HI; assumption). destruct K2 as [-> ->]. rewrite !Nat.eqb_refl. reflexivity.
          - destruct (Nat.eqb_spec i p), (Nat.eqb_spec j q); try reflexivity. congruence. }
        unfold mupd. rewrite !KA by lia. rewrite (U1 i j Hi Hj).
        destruct (Nat.eqb_spec i I) as [Ei|Ei], (Nat.eqb_spec j J) as [Ej|Ej]; simpl.
        -- rewrite Ei, Ej. rewrite Ex.
           destruct (Nat.ltb_spec I I), (Nat.ltb_spec J I), (Nat.ltb_spec J (J + 1)); simpl; reflexivity || lia.
        -- destruct (Nat.eqb_spec i J) as [F|F], (Nat.eqb_spec j I) as [G|G]; simpl.
           ++ lia.
           ++ subst i. assert (J = I) by lia. subst J.
              destruct (Nat.ltb_spec j (I + 1)), (Nat.ltb_spec j I), (Nat.ltb_spec I I); simpl; reflexivity || lia.
           ++ subst i j. rewrite Nat.ltb_irrefl. simpl.
              destruct (Nat.ltb_spec I J), (Nat.ltb_spec I (J + 1)); simpl; reflexivity || lia.
           ++ subst i. destruct (Nat.ltb_spec j (J + 1)), (Nat.ltb_spec j J), (Nat.ltb_spec I I), (Nat.ltb_spec j I); simpl; reflexivity || lia.
        -- destruct (Nat.eqb_spec i J) as [F|F], (Nat.eqb_spec j I) as [G|G]; simpl.
           ++ lia.
           ++ subst i j. destruct (Nat.ltb_spec J I), (Nat.eqb_spec J I); try lia. simpl. reflexivity.
           ++ subst j. assert (J = I) by lia. subst J.
              destruct (Nat.ltb_spec i (I + 1)), (Nat.ltb_spec i I), (Nat.ltb_spec I I); simpl; reflexivity || lia.
           ++ subst j. destruct (Nat.eqb_spec J I) as [G'|G']; [lia|]. simpl. reflexivity.
        -- destruct (Nat.eqb_spec i J) as [F|F], (Nat.eqb_spec j I) as [G|G]; simpl.
           ++ subst i j. rewrite Ey.
              destruct (Nat.ltb_spec J (J + 1)), (Nat.ltb_spec J I), (Nat.ltb_spec I I); simpl; reflexivity || lia.
           ++ reflexivity.
           ++ subst j. destruct (Nat.ltb_spec i (J + 1)), (Nat.ltb_spec i J); simpl; try reflexivity; lia.
           ++ reflexivity.
      * intros a Ha. unfold mupd.
        destruct (Z.eqb_spec a (at2 l I J)) as [K|_]; [exfalso; apply (Ha I J); lia || assumption|].
        destruct (Z.eqb_spec a (at2 l J I)) as [K|_]; [exfalso; apply (Ha J I); lia || assumption|].
        apply U2; assumption.
    + exists t'. split; [exact E'|]. replace (I + (n - I)) with n in Q' by lia.
      destruct Q' as [Q1 Q2]. split; [|exact Q2].
      intros i j Hi Hj. rewrite Q1 by lia.
      match goal with |- (if ?a then _ else _) = (if ?b then _ else _) => replace b with a by lia end.
      reflexivity.
  - exists m'. split; [exact E|]. rewrite Nat.add_0_l in Q. destruct Q as [Q1 Q2]. split; [|exact Q2].
    intros i j Hi Hj. rewrite Q1 by assumption.
    destruct (Nat.ltb_spec i n); [reflexivity|lia].
Qed.
End CopyProofs.

Section Copy1Proofs.
Context {V : Type}.
Implicit Types m : mem V.

Lemma copy1_copies (cv : option (V -> V)) (l r : dv1) m :
  n1 l <= n1 r -> apart1 l r \/ (p1 l = p1 r /\ s1 l = s1 r) ->
  copy1 cv l r m =
  foldM (cp (match cv with None => fun x => x | Some f => f end)) (map (fun i => (at1 l i, at1 r i)) (seq 0 (n1 l))) m.
Proof.
  intros HN HA. unfold copy1. rewrite (proj2 (Nat.leb_le _ _) HN).
  destruct (match cv with None => true | Some _ => false end && (s1 l =? 1)%Z && (s1 r =? 1)%Z) eqn:EU.
  - apply andb_prop in EU. destruct EU as [EU U2]. apply andb_prop in EU. destruct EU as [EC U1].
    apply Z.eqb_eq in U1, U2. destruct cv; [discriminate|].
    rewrite memcpy_copies.
    + f_equal. apply map_ext. intros k. unfold at1. rewrite U1, U2. f_equal; lia.
    + destruct HA as [HA|[HP _]]; [|auto]. apply ranges_apart.
      intros i j Hi Hj K. apply (HA i j); try lia. unfold at1. rewrite U1, U2. lia.
  - clear EU. set (f := match cv with None => fun x => x | Some f => f end).
    pose proof (ptr_loop (fun m a b => x <- mload m b ;; mstore m a (f x)) (s1 l) (s1 r) (p1 l) (p1 r) (n1 l) 0 m) as PL.
    simpl Z.of_nat in PL. rewrite !Z.mul_0_l, !Z.add_0_r in PL.
    match goal with |- bind (loop ?g 0 _ ?s) _ = _ =>
      match type of PL with loop ?h _ _ _ = _ => rewrite (loop_ext g h (n1 l) 0 s) end end.
    2:{ intros j [[m1 l1] r1] _. destruct (mload m1 r1); simpl; [|reflexivity]. unfold f. destruct cv; reflexivity. }
    rewrite PL, loop_foldM, <- foldM_map. unfold cp, at1; simpl.
    destruct (foldM _ (seq 0 (n1 l)) m); reflexivity.
Qed.

Lemma copy1_ok (cv : option (V -> V)) (l r : dv1) m :
  n1 l <= n1 r -> own1 m l -> readable1 m r -> apart1 l r \/ (p1 l = p1 r /\ s1 l = s1 r) ->
  exists m', copy1 cv l r m = Some m' /\ assigned1 (match cv with None => fun x => x | Some f => f end) l r m m'.
Proof.
  intros HN [HO HI] HR HA. rewrite copy1_copies by assumption.
  set (f := match cv with None => fun x => x | Some f => f end).
  destruct (copies_ok f (map (fun i => (at1 l i, at1 r i)) (seq 0 (n1 l))) m) as (m' & E & Q1 & Q2).
  - rewrite map_map. simpl. apply NoDup_map_in; [apply seq_NoDup|].
    intros i j Hi Hj. apply in_seq in Hi, Hj. apply HI; lia.
  - intros d s K. apply in_map_iff in K. destruct K as (i & K & H). inversion K; subst d s.
    apply in_seq in H. split; [apply HO; lia|apply HR; lia].
  - intros d s d' s' K K' Es. apply in_map_iff in K, K'. destruct K as (i & K & H), K' as (i' & K' & H').
    inversion K; subst d s; inversion K'; subst d' s'. apply in_seq in H, H'.
    destruct HA as [HA|[A0 A1]].
    + exfalso. apply (HA i' i); try lia; congruence.
    + unfold at1 in *. congruence.
  - exists m'. split; [exact E|]. split.
    + intros i Hi. apply (Q1 (at1 l i) (at1 r i)). apply in_map_iff. exists i. split; [reflexivity|apply in_seq; lia].
    + intros a Ha. apply Q2. rewrite map_map. intros K. apply in_map_iff in K. destruct K as (i & K & H).
      apply in_seq in H. apply (Ha i); [lia|]. simpl in K. congruence.
Qed.

(** Split-complex: two independent strided copies. *)
Lemma copy_split_ok (lr li rr ri : dv2) m :
  own2 m lr -> own2 m li -> readable2 m rr -> readable2 m ri ->
  conform2 lr rr -> conform2 li ri -> conform2 lr li ->
  s2_0 li = s2_0 lr -> s2_1 li = s2_1 lr -> s2_0 ri = s2_0 rr -> s2_1 ri = s2_1 rr ->
  apart2 lr rr -> apart2 li ri -> apart2 lr ri -> apart2 lr li ->
  exists m', copy_split m (p2 lr) (p2 li) (s2_0 lr) (s2_1 lr) (p2 rr) (p2 ri) (s2_0 rr) (s2_1 rr) (n2_0 lr) (n2_1 lr) = Some m' /\
    (forall i j, i < n2_0 lr -> j < n2_1 lr -> m' (at2 lr i j) = m (at2 rr i j) /\ m' (at2 li i j) = m (at2 ri i j)) /\
    (forall a, (forall i j, i < n2_0 lr -> j < n2_1 lr -> a <> at2 lr i j /\ a <> at2 li i j) -> m' a = m a).
Proof.
  intros O1 O2 R1 R2 C1 C2 C3 S1 S2 S3 S4 A1 A2 A3 A4.
  assert (Conf := C1). assert (Conf2 := C2). assert (Conf3 := C3).
  destruct Conf as [N1 N2], Conf2 as [N3 N4], Conf3 as [N5 N6].
  unfold copy_split.
  destruct (copy_strided_ok lr rr m O1 R1 C1 (or_introl A1)) as (m1 & E1 & P1 & P2).
  rewrite E1; simpl.
  assert (K1 : forall i j, i < n2_0 lr -> j < n2_1 lr -> m1 (at2 li i j) = m (at2 li i j)).
  { intros i j Hi Hj. apply P2. intros i' j' Hi' Hj' E. apply (A4 i' j' i j); lia || auto. }
  assert (K2 : forall i j, i < n2_0 lr -> j < n2_1 lr -> m1 (at2 ri i j) = m (at2 ri i j)).
  { intros i j Hi Hj. apply P2. intros i' j' Hi' Hj' E. apply (A3 i' j' i j); lia || auto. }
  destruct (copy_strided_ok li ri m1) as (m2 & E2 & Q1 & Q2).
  - destruct O2 as [O2 I2]. split; [|exact I2]. intros i j Hi Hj. rewrite K1 by lia. apply O2; assumption.
  - intros i j Hi Hj. rewrite K2 by lia. apply R2; assumption.
  - exact C2.
  - left; exact A2.
  - rewrite S1, S2, S3, S4, N5, N6 in E2. exists m2. split; [exact E2|]. split.
    + intros i j Hi Hj. split.
      * rewrite Q2.
        -- destruct (P1 i j Hi Hj) as (x & X1 & X2). congruence.
        -- intros i' j' Hi' Hj' E. apply (A4 i j i' j'); lia || auto.
      * destruct (Q1 i j ltac:(lia) ltac:(lia)) as (x & X1 & X2). rewrite X2, <- X1. apply K2; assumption.
    + intros a Ha. rewrite Q2.
      * apply P2. intros i j Hi Hj. apply (Ha i j); assumption.
      * intros i j Hi Hj. apply (Ha i j); lia.
Qed.
End Copy1Proofs.

Section Copy2Proofs.
Context {V : Type}.
Implicit Types m : mem V.

Lemma apart_ptr (l r : dv2) : conform2 l r -> 0 < n2_0 l -> 0 < n2_1 l -> apart2 l r -> (p2 l =? p2 r)%Z = false.
Proof.
  intros [C0 C1] H0 H1 HA. apply Z.eqb_neq. intros E. apply (HA 0 0 0 0); try lia. unfold at2. lia.
Qed.

Lemma copy2_ok (lo ro : order2) l r m :
  own2 m l -> readable2 m r -> conform2 l r -> apart2 l r -> 0 < n2_0 l -> 0 < n2_1 l ->
  (lo = Row2 -> ro = Col2 -> (s2_1 l = 1%Z /\ s2_0 r = 1%Z) \/ n2_0 l = n2_1 l) ->
  exists m', copy2 lo ro l r m = Some m' /\ assigned2 l r m m'.
Proof.
  intros HO HR HC HA H0 H1 HX. destruct lo, ro; simpl.
  - apply copy_strided_ok; auto.
  - unfold copy_row_col. rewrite (apart_ptr l r HC H0 H1 HA).
    destruct ((s2_1 l =? 1)%Z && (s2_0 r =? 1)%Z) eqn:EU.
    + apply andb_prop in EU. destruct EU as [U1 U2]. apply Z.eqb_eq in U1, U2.
      apply transpose_to_swapped_ok; auto.
    + destruct (HX eq_refl eq_refl) as [[U1 U2]|Hsq].
      * rewrite U1, U2 in EU. discriminate.
      * pose proof (copy_strided_ok l r m HO HR HC (or_introl HA)) as K. rewrite Hsq in *. exact K.
  - unfold copy_col_row. rewrite (apart_ptr l r HC H0 H1 HA).
    destruct ((s2_0 l =? 1)%Z && (s2_1 r =? 1)%Z) eqn:EU.
    + apply andb_prop in EU. destruct EU as [U1 U2]. apply Z.eqb_eq in U1, U2.
      apply transpose_to_ok; auto.
    + apply copy_strided_ok; auto.
  - apply copy_strided_swapped_ok; auto.
Qed.

Lemma copy2_self_ok (o : order2) l r m :
  own2 m l -> conform2 l r -> same2 l r ->
  exists m', copy2 o o l r m = Some m' /\ assigned2 l r m m'.
Proof.
  intros HO HC HS.
  assert (HR : readable2 m r).
  { intros i j Hi Hj. destruct HO as [HO _], HC as [C0 C1].
    destruct HS as (E1 & E2 & E3). unfold at2. rewrite <- E1, <- E2, <- E3. apply HO; lia. }
  destruct o; [apply copy_strided_ok|apply copy_strided_swapped_ok]; auto.
Qed.

Lemma copy2_in_place_ok (lo ro : order2) l r m :
  lo <> ro -> own2 m l -> n2_0 l = n2_1 l -> conform2 l r ->
  p2 l = p2 r -> s2_0 l = s2_1 r -> s2_1 l = s2_0 r ->
  exists m', copy2 lo ro l r m = Some m' /\ assigned2 l r m m'.
Proof.
  intros HX HO Hsq HC HP S1 S2.
  destruct (in_place_ok l m Hsq HO) as (m' & E & Q1 & Q2).
  exists m'. split.
  - destruct lo, ro; try congruence; simpl; unfold copy_row_col, copy_col_row;
    rewrite HP, Z.eqb_refl, Hsq, Nat.eqb_refl; rewrite HP, Hsq in E; exact E.
  - split; [|exact Q2]. intros i j Hi Hj.
    assert (ER : at2 r i j = at2 l j i) by (unfold at2; rewrite <- HP, <- S1, <- S2; lia).
    rewrite ER, (Q1 i j Hi Hj). destruct HO as [HO _].
    destruct (m (at2 l j i)) as [x|] eqn:Ex; [eauto|]. exfalso. apply (HO j i); lia || assumption.
Qed.
End Copy2Proofs.
