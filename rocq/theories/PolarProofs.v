From Coq Require Import ZArith List Bool Arith Lia.
From Verif Require Import Base Polar.
Import ListNotations.
Local Open Scope nat_scope.

Section P.
Context {V : Type}.
Implicit Types m : mem V.

Fixpoint each (step : list nat -> mem V -> option (mem V)) (l : list (list nat)) m : option (mem V) :=
  match l with [] => Some m | i :: l' => m' <- step i m ;; each step l' m' end.
Lemma each_app step l1 l2 : forall m, each step (l1 ++ l2) m = (m' <- each step l1 m ;; each step l2 m').
Proof. induction l1; intros m; [reflexivity|]. simpl. destruct (step a m); [apply IHl1 | reflexivity]. Qed.
Lemma loop_each step (g : nat -> list nat) n : forall a m,
  loop (fun i m => step (g i) m) a n m = each step (map g (seq a n)) m.
Proof. induction n; intros a m; [reflexivity|]. cbn [loop seq map each]. destruct (step (g a) m); [|reflexivity]. cbn [bind]. rewrite Nat.add_1_r. apply IHn. Qed.
Lemma loop_each2 step (g : nat -> nat -> list nat) c n : forall a m,
  loop (fun i m => loop (fun j m => step (g i j) m) 0 c m) a n m =
  each step (flat_map (fun i => map (g i) (seq 0 c)) (seq a n)) m.
Proof.
  induction n; intros a m; [reflexivity|]. cbn [loop seq flat_map]. rewrite each_app, <- (loop_each step (g a)).
  destruct (loop _ 0 c m); [|reflexivity]. cbn [bind]. rewrite Nat.add_1_r. apply IHn.
Qed.

(** The general pass: read two cells, write two cells. *)
Definition step2 (ra rb wa wb : list nat -> Z) (F G : V -> V -> V) (i : list nat) m : option (mem V) :=
  x <- mload m (ra i) ;; y <- mload m (rb i) ;; m1 <- mstore m (wa i) (F x y) ;; mstore m1 (wb i) (G x y).

Lemma mstore_some m a x : m a <> None -> mstore m a x = Some (mupd m a x).
Proof. unfold mstore. destruct (m a); congruence. Qed.
Lemma mupd_same m a x : mupd m a x a = Some x.
Proof. unfold mupd. rewrite Z.eqb_refl. reflexivity. Qed.
Lemma mupd_other m a x b : b <> a -> mupd m a x b = m b.
Proof. intros H. unfold mupd. destruct (Z.eqb_spec b a); [contradiction | reflexivity]. Qed.

Lemma pass (ra rb wa wb : list nat -> Z) (F G : V -> V -> V) (P : list nat -> Prop) : forall l m,
  NoDup l -> (forall i, In i l -> P i) ->
  (forall i j, P i -> P j -> wa i = wa j -> i = j) -> (forall i j, P i -> P j -> wb i = wb j -> i = j) ->
  (forall i j, P i -> P j -> wa i <> wb j) ->
  (forall l1 i l2 j, l = l1 ++ i :: l2 -> In j l2 -> wa i <> ra j /\ wa i <> rb j /\ wb i <> ra j /\ wb i <> rb j) ->
  (forall i, In i l -> m (ra i) <> None /\ m (rb i) <> None /\ m (wa i) <> None /\ m (wb i) <> None) ->
  exists m', each (step2 ra rb wa wb F G) l m = Some m' /\
    (forall i x y, In i l -> m (ra i) = Some x -> m (rb i) = Some y -> m' (wa i) = Some (F x y) /\ m' (wb i) = Some (G x y)) /\
    (forall a, (forall i, In i l -> a <> wa i /\ a <> wb i) -> m' a = m a) /\
    (forall a, m a <> None -> m' a <> None).
Proof.
  induction l as [|i l IH]; intros m Hd HP Ia Ib Iab Hlater Hm.
  { exists m. split; [reflexivity|]. split; [intros i x y []|]. auto. }
  inversion Hd as [|? ? Hni Hd']; subst.
  destruct (Hm i (or_introl eq_refl)) as (Hra & Hrb & Hwa & Hwb).
  destruct (m (ra i)) as [x|] eqn:Ex; [|congruence]. destruct (m (rb i)) as [y|] eqn:Ey; [|congruence].
  set (m1 := mupd (mupd m (wa i) (F x y)) (wb i) (G x y)).
  assert (Hup : forall a, m a <> None -> m1 a <> None).
  { intros a Ha. unfold m1, mupd. destruct (a =? wb i)%Z; [discriminate|]. destruct (a =? wa i)%Z; [discriminate | exact Ha]. }
  assert (Hst : step2 ra rb wa wb F G i m = Some m1).
  { unfold step2, mload. rewrite Ex, Ey. cbn [bind]. rewrite mstore_some by exact Hwa. cbn [bind].
    rewrite mstore_some; [reflexivity|]. unfold mupd. destruct (wb i =? wa i)%Z; [discriminate | exact Hwb]. }
  assert (Hsame : forall j, In j l -> m1 (ra j) = m (ra j) /\ m1 (rb j) = m (rb j)).
  { intros j Hj. destruct (Hlater [] i l j eq_refl Hj) as (A & B & C & D).
    unfold m1. rewrite !mupd_other by congruence. auto. }
  destruct (IH m1) as (m' & He & Hv & Hf & Hn).
  - exact Hd'.
  - intros j Hj. apply HP. right. exact Hj.
  - exact Ia.
  - exact Ib.
  - exact Iab.
  - intros l1 k l2 j -> Hj. exact (Hlater (i :: l1) k l2 j eq_refl Hj).
  - intros j Hj. destruct (Hm j (or_intror Hj)) as (A & B & C & D). auto.
  - exists m'. cbn [each]. rewrite Hst. cbn [bind]. split; [exact He|]. split; [|split].
    + intros j x' y' [<- | Hj] Hx Hy.
      * rewrite Ex in Hx. rewrite Ey in Hy. injection Hx as <-. injection Hy as <-.
        assert (Pi : P i) by (apply HP; left; reflexivity).
        rewrite !Hf.
        -- unfold m1. rewrite mupd_same. rewrite mupd_other by (apply Iab; assumption). rewrite mupd_same. auto.
        -- intros k Hk. assert (Pk : P k) by (apply HP; right; exact Hk). split.
           ++ intros E. symmetry in E. exact (Iab k i Pk Pi E).
           ++ intros E. apply Hni. rewrite (Ib i k Pi Pk E). exact Hk.
        -- intros k Hk. assert (Pk : P k) by (apply HP; right; exact Hk). split.
           ++ intros E. apply Hni. rewrite (Ia i k Pi Pk E). exact Hk.
           ++ apply Iab; assumption.
      * destruct (Hsame j Hj) as (A & B). apply Hv; [exact Hj | congruence | congruence].
    + intros a Ha. rewrite Hf.
      * destruct (Ha i (or_introl eq_refl)). unfold m1. rewrite !mupd_other by assumption. reflexivity.
      * intros j Hj. apply Ha. right. exact Hj.
    + auto.
Qed.

Lemma within1 i n : within i [n] = true <-> exists k, i = [k] /\ k < n.
Proof.
  split.
  - destruct i as [|k [|k' i]]; cbn [within]; try discriminate.
    + rewrite andb_true_r. intros H. apply Nat.ltb_lt in H. eauto.
    + rewrite andb_false_r. discriminate.
  - intros (k & -> & H). cbn [within]. rewrite (proj2 (Nat.ltb_lt _ _) H). reflexivity.
Qed.
Lemma within2 i r c : within i [r; c] = true <-> exists k l, i = [k; l] /\ k < r /\ l < c.
Proof.
  split.
  - destruct i as [|k [|l [|k' i]]]; cbn [within]; rewrite ?andb_false_r; try discriminate.
    intros H. rewrite andb_true_r in H. apply andb_true_iff in H. destruct H as [H1 H2].
    apply Nat.ltb_lt in H1, H2. exists k, l. auto.
  - intros (k & l & -> & H1 & H2). cbn [within]. rewrite (proj2 (Nat.ltb_lt _ _) H1), (proj2 (Nat.ltb_lt _ _) H2). reflexivity.
Qed.

(** The order of [map g (seq 0 n)]. *)
Lemma split_seq {A} (g : nat -> A) n : forall a l1 i l2 j, map g (seq a n) = l1 ++ i :: l2 -> In j l2 ->
  exists k k', a <= k < k' /\ k' < a + n /\ i = g k /\ j = g k'.
Proof.
  induction n; intros a l1 i l2 j E Hj; cbn [seq map] in E; [destruct l1; discriminate|].
  destruct l1 as [|e l1]; cbn [app] in E; injection E as E1 E2.
  - subst. apply in_map_iff in Hj. destruct Hj as (k' & <- & Hk). apply in_seq in Hk. exists a, k'. repeat split; lia.
  - destruct (IHn (S a) l1 i l2 j E2 Hj) as (k & k' & A1 & A2 & A3 & A4). exists k, k'. repeat split; try assumption; lia.
Qed.
Lemma nodup_map {A} (g : nat -> A) : (forall i j, g i = g j -> i = j) -> forall l, NoDup l -> NoDup (map g l).
Proof.
  intros Hg l H. induction H; cbn; constructor; [|assumption].
  intros Hin. apply in_map_iff in Hin. destruct Hin as (y & E & Hy). apply Hg in E. subst. contradiction.
Qed.

Lemma size1 n : size [n] = n.
Proof. cbn. lia. Qed.

Lemma to_polar dbg cv mag ph z rho theta m n :
  csz z = [n] -> rsz rho = [n] -> rsz theta = [n] ->
  apart rho theta ->
  (forall i j, i < j -> j < n -> rat rho [i] <> re_at z [j] /\ rat rho [i] <> im_at z [j] /\
                              rat theta [i] <> re_at z [j] /\ rat theta [i] <> im_at z [j]) ->
  there m rho -> there m theta -> there m (real_of z) -> there m (imag_of z) ->
  exists m', recttopolar dbg cv mag ph z rho theta m = Some m' /\
    (forall i x y, i < n -> holds m (real_of z) [i] x -> holds m (imag_of z) [i] y ->
       holds m' rho [i] (cv (mag (x, y))) /\ holds m' theta [i] (cv (ph (x, y)))) /\
    (forall a, ~ rcell rho a -> ~ rcell theta a -> m' a = m a) /\
    (forall a, m a <> None -> m' a <> None).
Proof.
  intros Ez Er Et (Ia & Ib & Iab) Hl Mr Mt Mre Mim.
  assert (Hw : forall k, k < n -> within [k] [n] = true) by (intros k Hk; apply within1; eauto).
  destruct (pass (re_at z) (im_at z) (rat rho) (rat theta) (fun x y => cv (mag (x, y))) (fun x y => cv (ph (x, y)))
              (fun i => within i [n] = true) (map (fun k => [k]) (seq 0 n)) m) as (m' & He & Hv & Hf & Hn).
  - apply nodup_map; [congruence | apply seq_NoDup].
  - intros i Hi. apply in_map_iff in Hi. destruct Hi as (k & <- & Hk). apply in_seq in Hk. apply Hw. lia.
  - rewrite Er in Ia. exact Ia.
  - rewrite Et in Ib. exact Ib.
  - rewrite Er, Et in Iab. exact Iab.
  - intros l1 i l2 j E Hj. destruct (split_seq _ _ _ _ _ _ _ E Hj) as (k & k' & A & B & -> & ->). apply Hl; lia.
  - intros i Hi. apply in_map_iff in Hi. destruct Hi as (k & <- & Hk). apply in_seq in Hk.
    assert (Hk' : within [k] [n] = true) by (apply Hw; lia).
    repeat split; [apply Mre | apply Mim | apply Mr | apply Mt]; exists [k]; cbn [rsz rat real_of imag_of]; rewrite ?Ez, ?Er, ?Et; auto.
  - exists m'. split; [|split; [|split]].
    + unfold recttopolar. rewrite Ez, Er, Et, size1, Nat.eqb_refl. cbn [andb]. rewrite orb_true_r. cbn iota beta.
      rewrite <- He, <- (loop_each _ (fun k => [k])).
      assert (L : forall s a m0, a + s <= n ->
        loop (fun i m1 => tmp <- cget m1 z [i];; m2 <- rput m1 rho [i] (cv (mag tmp));; rput m2 theta [i] (cv (ph tmp))) a s m0 =
        loop (fun i m1 => step2 (re_at z) (im_at z) (rat rho) (rat theta) (fun x y => cv (mag (x, y))) (fun x y => cv (ph (x, y))) [i] m1) a s m0).
      { induction s; intros a m0 Ha; [reflexivity|]. cbn [loop].
        unfold cget at 1, rput at 1 2, step2 at 1. rewrite Ez, Er, Et, (Hw a) by lia. cbn iota beta.
        destruct (mload m0 (re_at z [a])); [|reflexivity]. cbn [bind].
        destruct (mload m0 (im_at z [a])); [|reflexivity]. cbn [bind].
        destruct (mstore m0 _ _); [|reflexivity]. cbn [bind].
        destruct (mstore m1 _ _); [|reflexivity]. cbn [bind]. apply IHs. lia. }
      apply L. lia.
    + intros i x y Hi Hx Hy. apply (Hv [i] x y); [|exact Hx | exact Hy]. apply in_map_iff. exists i. split; [reflexivity|]. apply in_seq. lia.
    + intros a H1 H2. apply Hf. intros i Hi. apply in_map_iff in Hi. destruct Hi as (k & <- & Hk). apply in_seq in Hk.
      split; intros ->; [apply H1 | apply H2]; exists [k]; rewrite ?Er, ?Et; split; auto; apply Hw; lia.
    + exact Hn.
Qed.

(** The loop bodies of the assignment are passes. *)
Lemma node_step f w a b sz i m : csz w = sz -> rsz a = sz -> rsz b = sz -> within i sz = true ->
  (x <- node f a b m i ;; cput m w i x) =
  step2 (rat a) (rat b) (re_at w) (im_at w) (fun x y => fst (f x y)) (fun x y => snd (f x y)) i m.
Proof.
  intros Ew Ea Eb Hi. unfold node, rget, cput, step2. rewrite Ew, Ea, Eb, Hi. cbn iota beta.
  destruct (mload m (rat a i)); [|reflexivity]. cbn [bind]. destruct (mload m (rat b i)); reflexivity.
Qed.
Lemma each_ext (s1 s2 : list nat -> mem V -> option (mem V)) l : (forall i m, In i l -> s1 i m = s2 i m) -> forall m, each s1 l m = each s2 l m.
Proof.
  induction l; intros H m; [reflexivity|]. cbn [each]. rewrite H by (left; reflexivity).
  destruct (s2 a m); [|reflexivity]. cbn [bind]. apply IHl. intros. apply H. right. assumption.
Qed.

Lemma nodup_split {A} (l : list A) l1 i l2 j : NoDup l -> l = l1 ++ i :: l2 -> In j l2 -> i <> j.
Proof.
  intros H -> Hj ->. apply NoDup_remove_2 in H. apply H. apply in_or_app. right. exact Hj.
Qed.

Lemma from_list f w a b sz l m : csz w = sz -> rsz a = sz -> rsz b = sz -> NoDup l ->
  (forall i, In i l <-> within i sz = true) ->
  apart (real_of w) (imag_of w) -> own_cells w a b ->
  there m a -> there m b -> there m (real_of w) -> there m (imag_of w) ->
  exists m', each (fun i m => x <- node f a b m i ;; cput m w i x) l m = Some m' /\
    (forall i x y, within i sz = true -> holds m a i x -> holds m b i y ->
       holds m' (real_of w) i (fst (f x y)) /\ holds m' (imag_of w) i (snd (f x y))) /\
    (forall c, ~ ccell w c -> m' c = m c).
Proof.
  intros Ew Ea Eb Hd Hin (Ia & Ib & Iab) Ho Ma Mb Mre Mim. cbn [rsz rat real_of imag_of] in Ia, Ib, Iab. rewrite Ew in Ia, Ib, Iab.
  destruct (pass (rat a) (rat b) (re_at w) (im_at w) (fun x y => fst (f x y)) (fun x y => snd (f x y))
              (fun i => within i sz = true) l m) as (m' & He & Hv & Hf & Hn); auto.
  - intros i Hi. apply Hin. exact Hi.
  - intros l1 i l2 j E Hj. assert (Hne : i <> j) by (eapply nodup_split; eassumption).
    assert (Hi : within i sz = true) by (apply Hin; rewrite E; apply in_or_app; right; left; reflexivity).
    assert (Hj' : within j sz = true) by (apply Hin; rewrite E; apply in_or_app; right; right; exact Hj).
    unfold own_cells in Ho. rewrite Ew in Ho.
    destruct (Ho j i Hj' Hi (not_eq_sym Hne)) as (A & B & C & D). repeat split; congruence.
  - intros i Hi. apply Hin in Hi.
    repeat split; [apply Ma | apply Mb | apply Mre | apply Mim]; exists i; cbn [rsz rat real_of imag_of]; rewrite ?Ew, ?Ea, ?Eb; auto.
  - exists m'. split; [|split].
    + rewrite <- He. apply each_ext. intros i m0 Hi. apply node_step with (sz := sz); auto. apply Hin. exact Hi.
    + intros i x y Hi Hx Hy. apply Hv; [apply Hin; exact Hi | exact Hx | exact Hy].
    + intros c Hc. apply Hf. intros i Hi. apply Hin in Hi. split; intros ->; apply Hc; exists i; rewrite Ew; auto.
Qed.

Lemma in_vec i n : In i (map (fun k => [k]) (seq 0 n)) <-> within i [n] = true.
Proof.
  rewrite within1, in_map_iff. split; intros (k & H1 & H2).
  - apply in_seq in H2. exists k. split; [auto | lia].
  - exists k. split; [auto|]. apply in_seq. lia.
Qed.
Lemma in_rows i r c : In i (flat_map (fun k => map (fun l => [k; l]) (seq 0 c)) (seq 0 r)) <-> within i [r; c] = true.
Proof.
  rewrite within2, in_flat_map. split.
  - intros (k & H1 & H2). apply in_map_iff in H2. destruct H2 as (l & <- & H2). apply in_seq in H1, H2. exists k, l. repeat split; lia.
  - intros (k & l & -> & H1 & H2). exists k. split; [apply in_seq; lia|]. apply in_map_iff. exists l. split; [auto | apply in_seq; lia].
Qed.
Lemma in_cols i r c : In i (flat_map (fun l => map (fun k => [k; l]) (seq 0 r)) (seq 0 c)) <-> within i [r; c] = true.
Proof.
  rewrite within2, in_flat_map. split.
  - intros (l & H1 & H2). apply in_map_iff in H2. destruct H2 as (k & <- & H2). apply in_seq in H1, H2. exists k, l. repeat split; lia.
  - intros (k & l & -> & H1 & H2). exists l. split; [apply in_seq; lia|]. apply in_map_iff. exists k. split; [auto | apply in_seq; lia].
Qed.
Lemma nodup_app {A} (l1 l2 : list A) : NoDup l1 -> NoDup l2 -> (forall x, In x l1 -> ~ In x l2) -> NoDup (l1 ++ l2).
Proof.
  induction l1; intros H1 H2 H; [exact H2|]. inversion H1; subst. cbn. constructor.
  - rewrite in_app_iff. intros [Hin | Hin]; [contradiction|]. exact (H a (or_introl eq_refl) Hin).
  - apply IHl1; auto. intros x Hx. apply H. right. exact Hx.
Qed.
Lemma nodup_flat {A} (g : nat -> nat -> A) n : (forall i j k l, g i j = g k l -> i = k /\ j = l) ->
  forall l, NoDup l -> NoDup (flat_map (fun i => map (g i) (seq 0 n)) l).
Proof.
  intros Hg l H. induction H as [|i l Hi H IH]; [constructor|]. cbn [flat_map]. apply nodup_app.
  - apply nodup_map; [intros j k E; apply Hg in E; tauto | apply seq_NoDup].
  - exact IH.
  - intros x Hx Hx'. apply in_map_iff in Hx. destruct Hx as (j & <- & _). apply in_flat_map in Hx'.
    destruct Hx' as (k & Hk & Hx'). apply in_map_iff in Hx'. destruct Hx' as (l' & E & _). apply Hg in E. destruct E as [-> _]. contradiction.
Qed.

Definition assigns (f : V -> V -> V * V) (w : cview) (a b : rview) (sz : list nat) m (r : option (mem V)) : Prop :=
  exists m', r = Some m' /\
    (forall i x y, within i sz = true -> holds m a i x -> holds m b i y ->
       holds m' (real_of w) i (fst (f x y)) /\ holds m' (imag_of w) i (snd (f x y))) /\
    (forall c, ~ ccell w c -> m' c = m c).
Lemma from1 f w a b n m : csz w = [n] -> rsz a = [n] -> rsz b = [n] ->
  apart (real_of w) (imag_of w) -> own_cells w a b ->
  there m a -> there m b -> there m (real_of w) -> there m (imag_of w) ->
  assigns f w a b [n] m (assign1 f w a b m).
Proof.
  intros Ew Ea Eb H1 H2 Ma Mb Mr Mi. unfold assigns, assign1. rewrite Ew. cbn [nth].
  rewrite (loop_each (fun i m => x <- node f a b m i ;; cput m w i x) (fun k => [k])).
  apply from_list; auto; [apply nodup_map; [congruence | apply seq_NoDup] | intros i; apply in_vec].
Qed.
Lemma from2 o f w a b r c m : csz w = [r; c] -> rsz a = [r; c] -> rsz b = [r; c] ->
  apart (real_of w) (imag_of w) -> own_cells w a b ->
  there m a -> there m b -> there m (real_of w) -> there m (imag_of w) ->
  assigns f w a b [r; c] m (assign2 o f w a b m).
Proof.
  intros Ew Ea Eb H1 H2 Ma Mb Mr Mi. unfold assigns, assign2. rewrite Ew. cbn [nth]. destruct o.
  - rewrite (loop_each2 (fun i m => x <- node f a b m i ;; cput m w i x) (fun k l => [k; l])).
    apply from_list; auto; [apply (nodup_flat (fun k l => [k; l])); [intros i j k l E; injection E; auto | apply seq_NoDup] | intros i; apply in_rows].
  - rewrite (loop_each2 (fun i m => x <- node f a b m i ;; cput m w i x) (fun l k => [k; l])).
    apply from_list; auto; [apply (nodup_flat (fun l k => [k; l])); [intros i j k l E; injection E; auto | apply seq_NoDup] | intros i; apply in_cols].
Qed.

Lemma round_trip dbg mag ph pol z rho theta w m n :
  (forall x y, pol (mag (x, y)) (ph (x, y)) = (x, y)) ->
  csz z = [n] -> rsz rho = [n] -> rsz theta = [n] -> csz w = [n] ->
  apart rho theta -> own_cells z rho theta -> apart (real_of w) (imag_of w) -> own_cells w rho theta ->
  there m rho -> there m theta -> there m (real_of z) -> there m (imag_of z) -> there m (real_of w) -> there m (imag_of w) ->
  exists m1 m2, recttopolar dbg (fun x => x) mag ph z rho theta m = Some m1 /\ assign1 pol w rho theta m1 = Some m2 /\
    forall i x y, i < n -> holds m (real_of z) [i] x -> holds m (imag_of z) [i] y ->
      holds m2 (real_of w) [i] x /\ holds m2 (imag_of w) [i] y.
Proof.
  intros Hp Ez Er Et Ew Hap Hoz Haw How Mr Mt Mzr Mzi Mwr Mwi.
  destruct (to_polar dbg (fun x => x) mag ph z rho theta m n Ez Er Et Hap) as (m1 & E1 & H1 & _ & Hn); auto.
  { intros i j Hij Hj. unfold own_cells in Hoz. rewrite Ez in Hoz. apply Hoz; [apply within1; exists i; split; [auto | lia] | apply within1; eauto | congruence || (intros E; injection E; lia)]. }
  assert (Up : forall b : rview, there m b -> there m1 b) by (intros b Hb a Ha; apply Hn; apply Hb; exact Ha).
  destruct (from1 pol w rho theta n m1 Ew Er Et Haw How) as (m2 & E2 & H2 & _); auto.
  exists m1, m2. split; [exact E1|]. split; [exact E2|]. intros i x y Hi Hx Hy.
  destruct (H1 i x y Hi Hx Hy) as [A B]. destruct (H2 [i] _ _ (proj2 (within1 [i] n) (ex_intro _ i (conj eq_refl Hi))) A B) as [C D].
  rewrite Hp in C, D. auto.
Qed.

Lemma apart_own z : apart (real_of z) (imag_of z) -> own_cells z (real_of z) (imag_of z).
Proof.
  intros (A & B & C) i j Hi Hj Hij. cbn [rsz rat real_of imag_of] in *. repeat split; intros E.
  - apply Hij. exact (A i j Hi Hj E).
  - exact (C i j Hi Hj E).
  - exact (C j i Hj Hi (eq_sym E)).
  - apply Hij. exact (B i j Hi Hj E).
Qed.

Lemma sizes dbg cv mag ph z rho theta m : dbg = true ->
  fold_right Nat.mul 1 (csz z) <> fold_right Nat.mul 1 (rsz rho) \/ fold_right Nat.mul 1 (csz z) <> fold_right Nat.mul 1 (rsz theta) ->
  recttopolar dbg cv mag ph z rho theta m = None.
Proof.
  intros -> H. unfold recttopolar. cbn [negb orb].
  destruct (Nat.eqb_spec (size (csz z)) (size (rsz rho))); [|reflexivity].
  destruct (Nat.eqb_spec (size (csz z)) (size (rsz theta))); [|reflexivity]. destruct H; contradiction.
Qed.
End P.

Lemma interleaved_apart base off str n : str <> 0%Z ->
  apart (real_of (interleaved base off str n)) (imag_of (interleaved base off str n)).
Proof.
  intros Hs. unfold apart, real_of, imag_of, interleaved. cbn [rsz rat csz re_at im_at].
  assert (K : forall i j, within i [n] = true -> within j [n] = true -> strided off str i = strided off str j -> i = j).
  { intros i j Hi Hj E. apply within1 in Hi, Hj. destruct Hi as (k & -> & _), Hj as (l & -> & _). cbn [strided] in E.
    f_equal. apply Nat2Z.inj. nia. }
  repeat split; intros i j Hi Hj; try (intros E; apply K; auto; lia); lia.
Qed.
