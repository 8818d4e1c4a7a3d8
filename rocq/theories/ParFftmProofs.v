From Coq Require Import List Arith Lia Bool.
From Verif Require Import Base Dist DistProofs Traversal Map MapProofs Domain SubMap SubMapProofs SliceProofs ParVmProofs ParFftm.
Import ListNotations.
Local Open Scope nat_scope.

Lemma one_size d n : dist_ok d = true -> num_subblocks d = 1 -> subblock_size d n 0 = Some n.
Proof.
  intros O N. destruct (dist_spec_all d n O) as (A & _ & C).
  destruct (A 0 ltac:(lia)) as (s & k & E & _ & G & _). rewrite E. f_equal.
  assert (s <= n).
  { destruct s as [|s]; [lia|]. destruct (G s ltac:(lia)) as (g & _ & L & _ & J).
    destruct (one_block d n g O N L) as (_ & J'). rewrite J' in J. injection J as <-. lia. }
  assert (n <= s).
  { destruct n as [|n]; [lia|]. destruct (C n ltac:(lia)) as (sb & j & s' & S1 & S2 & S3 & S4 & S5 & _).
    assert (sb = 0) by lia. subst sb. destruct (one_block d (S n) n O N ltac:(lia)) as (_ & J').
    rewrite J' in S3. injection S3 as <-. assert (s' = s) by congruence. lia. }
  lia.
Qed.

Lemma rank_of pv : NoDup pv -> forall k pr, nth_error pv k = Some pr -> rank_from_proc pv pr = Some k.
Proof.
  induction 1 as [|x pv N ND IH]; intros k pr H; [destruct k; discriminate|]. cbn [rank_from_proc].
  destruct k as [|k]; cbn in H.
  - injection H as <-. rewrite Nat.eqb_refl. reflexivity.
  - destruct (Nat.eqb_spec x pr) as [->|]; [contradiction N; eapply nth_error_In, H|]. rewrite (IH k pr H). reflexivity.
Qed.

Lemma sizes_at d0 d1 d2 pv n0 n1 s0 s1 e0 e1 pr : num_subblocks d2 = 1 -> NoDup pv ->
  s0 < num_subblocks d0 -> s1 < num_subblocks d1 -> nth_error pv (s0 * num_subblocks d1 + s1) = Some pr ->
  subblock_size d0 n0 s0 = Some e0 -> subblock_size d1 n1 s1 = Some e1 ->
  local_sizes {| u_d := [d0; d1; d2]; u_pvec := pv |} [n0; n1] pr = Some [e0; e1].
Proof.
  intros N2 ND K0 K1 P E0 E1. unfold local_sizes, apply_map. cbn [u_d u_pvec length Nat.leb skipn forallb combine].
  rewrite N2. cbn [Nat.eqb andb bind]. unfold map_subblock. rewrite (rank_of pv ND _ _ P).
  assert (F : Forall2 lt [s0; s1] (subblocks [(d0, n0); (d1, n1)])) by (repeat constructor; assumption).
  pose proof (horner_bound _ _ F) as HB. cbn [horner subblocks map fst] in HB.
  pose proof (extent_ok [(d0, n0); (d1, n1)] [s0; s1] F) as EX. cbn [horner subblocks map fst] in EX.
  change (prod [num_subblocks d0; num_subblocks d1]) with (map_num_subblocks [(d0, n0); (d1, n1)]) in HB.
  replace (0 * num_subblocks d0 + s0) with s0 in HB, EX by lia.
  apply Nat.ltb_lt in HB. rewrite HB, EX. cbn [omap2]. unfold ssz. cbn [fst snd]. rewrite E0, E1. reflexivity.
Qed.

Lemma sizes_cases d0 d1 d2 pv n0 n1 m0 m1 pr : dist_ok d0 = true -> dist_ok d1 = true -> num_subblocks d2 = 1 ->
  (local_sizes {| u_d := [d0; d1; d2]; u_pvec := pv |} [n0; n1] pr = Some [0; 0] /\
   local_sizes {| u_d := [d0; d1; d2]; u_pvec := pv |} [m0; m1] pr = Some [0; 0]) \/
  exists s0 s1 e0 e1 f0 f1, s0 < num_subblocks d0 /\ s1 < num_subblocks d1 /\
   local_sizes {| u_d := [d0; d1; d2]; u_pvec := pv |} [n0; n1] pr = Some [e0; e1] /\
   local_sizes {| u_d := [d0; d1; d2]; u_pvec := pv |} [m0; m1] pr = Some [f0; f1] /\
   subblock_size d0 n0 s0 = Some e0 /\ subblock_size d1 n1 s1 = Some e1 /\
   subblock_size d0 m0 s0 = Some f0 /\ subblock_size d1 m1 s1 = Some f1.
Proof.
  intros O0 O1 N2. unfold local_sizes, apply_map. cbn [u_d u_pvec length Nat.leb skipn forallb combine].
  rewrite N2. cbn [Nat.eqb andb bind]. unfold map_subblock.
  change (map_num_subblocks [(d0, m0); (d1, m1)]) with (map_num_subblocks [(d0, n0); (d1, n1)]).
  destruct (rank_from_proc pv pr) as [sb|]; [|left; split; reflexivity].
  destruct (Nat.ltb_spec sb (map_num_subblocks [(d0, n0); (d1, n1)])) as [L|]; [|left; split; reflexivity].
  right. destruct (split_tuple_total [num_subblocks d0; num_subblocks d1] sb L) as (x & F & _ & E).
  inversion F as [|s0 ? ? ? K0 F1]. subst. inversion F1 as [|s1 ? ? ? K1 F2]. subst. inversion F2. subst.
  destruct (dist_spec_all d0 n0 O0) as (A0 & _). destruct (A0 s0 K0) as (e0 & _ & E0 & _).
  destruct (dist_spec_all d1 n1 O1) as (A1 & _). destruct (A1 s1 K1) as (e1 & _ & E1 & _).
  destruct (dist_spec_all d0 m0 O0) as (A2 & _). destruct (A2 s0 K0) as (f0 & _ & G0 & _).
  destruct (dist_spec_all d1 m1 O1) as (A3 & _). destruct (A3 s1 K1) as (f1 & _ & G1 & _).
  exists s0, s1, e0, e1, f0, f1.
  pose proof (extent_ok [(d0, n0); (d1, n1)] [s0; s1] F) as X1. pose proof (extent_ok [(d0, m0); (d1, m1)] [s0; s1] F) as X2.
  cbn [subblocks map fst omap2] in X1, X2. unfold ssz in X1, X2. cbn [fst snd] in X1, X2.
  rewrite E0, E1 in X1. rewrite G0, G1 in X2. cbn [bind] in X1, X2.
  repeat split; assumption.
Qed.

Lemma same_maps a b : map_eq a b = true -> b = a.
Proof.
  intros H. unfold map_eq in H. apply andb_prop in H as [H1 H2].
  apply dists_eq_eq in H1. apply list_eqb_eq in H2. destruct a, b; cbn in *; subst. reflexivity.
Qed.

Section OK.
Context {X Y : Type} (F : nat -> (nat -> X) -> nat -> Y) (k : kinds) (axis lines n : nat) (mout min : umap)
  (x : nat -> list nat -> X) (a : nat -> nat -> X).
Hypothesis AX : axis < 2.
Hypothesis LT : local_transform F k.
Hypothesis B : built mout.
Hypothesis L3 : length (u_d mout) = 3.
Hypothesis ND : NoDup (u_pvec mout).
Hypothesis AP : apply_map mout (sizes axis lines (points_out k n)) <> None.
Hypothesis ONE : forall d, nth_error (u_d mout) axis = Some d -> num_subblocks d = 1.
Hypothesis ME : map_eq mout min = true.
Hypothesis HX : holds min axis lines (points_in k n) x a.

Lemma fftm_ok : exists out,
  fftm_assign F k axis mout (sizes axis lines (points_out k n)) min (sizes axis lines (points_in k n)) x = Some out /\
  (forall pr, out pr <> None) /\
  (forall q p pr l, q < lines -> p < points_out k n -> placed mout (sizes axis lines (points_out k n)) (at_ axis q p) pr l ->
    exists g, out pr = Some g /\ g l = Some (F n (a q) p)).
Proof.
  apply same_maps in ME as E. subst min. unfold fftm_assign. rewrite ME. eexists. split; [reflexivity|].
  destruct mout as [ds pv]. cbn [u_d u_pvec] in *.
  destruct ds as [|d0 [|d1 [|d2 [|]]]]; try discriminate L3.
  assert (N2 : num_subblocks d2 = 1).
  { unfold apply_map, sizes in AP. destruct (axis =? 0); cbn [u_d length Nat.leb skipn forallb] in AP;
      (destruct (Nat.eqb_spec (num_subblocks d2) 1); [assumption|contradiction AP; reflexivity]). }
  pose proof B as (Bd & _). cbn [u_d] in Bd.
  inversion Bd as [|? ? O0 Bd1]. inversion Bd1 as [|? ? O1 Bd2]. inversion Bd2 as [|? ? O2 _]. subst. clear Bd Bd1 Bd2.
  assert (PI : points_in k n = match k with CR => n / 2 + 1 | _ => n end) by (destruct k; reflexivity).
  assert (PO : points_out k n = match k with RC => n / 2 + 1 | _ => n end) by (destruct k; reflexivity).
  destruct axis as [|[|ax]]; [| |lia]; cbn [sizes Nat.eqb at_] in *; cbv beta; cbn [nth_error] in ONE.
  - specialize (ONE d0 eq_refl). split.
    + intros pr. cbv beta.
      destruct (sizes_cases d0 d1 d2 pv (points_in k n) lines (points_out k n) lines pr O0 O1 N2) as
        [(E1 & E2)|(s0 & s1 & e0 & e1 & f0 & f1 & K0 & K1 & E1 & E2 & Z0 & Z1 & Z2 & Z3)]; rewrite E1, E2; cbn [bind]; unfold local_fftm, along, across.
      * destruct k; discriminate.
      * assert (s0 = 0) by lia. subst s0. rewrite one_size in Z0, Z2 by assumption. injection Z0 as <-. injection Z2 as <-.
        assert (f1 = e1) by congruence. subst f1. cbn [nth Nat.sub].
        destruct k; cbn [points_in points_out nth Nat.sub]; rewrite !Nat.leb_refl; cbn [andb]; rewrite orb_true_r; discriminate.
    + intros q p pr l Hq Hp PL.
      dim d0 (points_out k n) p O0 Hp s0 j0 S0 K0 J0. destruct (dim_home d1 lines q O1 Hq) as (s1 & _ & j1 & e1 & _ & _ & _ & _ & S1 & K1 & _ & J1 & Z1 & LT1 & _).
      rewrite (proj1 (placed2 d0 d1 d2 pv _ lines p q s0 s1 j0 j1 pr l B N2 Hp Hq S0 S1 K0 K1 J0 J1)) in PL. destruct PL as (PN & ->).
      destruct (one_block d0 _ p O0 ONE Hp) as (E & E'). rewrite E in S0. injection S0 as <-. rewrite E' in J0. injection J0 as <-.
      rewrite (sizes_at d0 d1 d2 pv (points_in k n) lines 0 s1 (points_in k n) e1 pr N2 ND K0 K1 PN (one_size _ _ O0 ONE) Z1).
      rewrite (sizes_at d0 d1 d2 pv (points_out k n) lines 0 s1 (points_out k n) e1 pr N2 ND K0 K1 PN (one_size _ _ O0 ONE) Z1).
      cbn [bind]. unfold local_fftm, along, across. cbn [nth Nat.sub].
      assert (V : F n (fun i => x pr [i; j1]) p = F n (a q) p).
      { apply LT. intros i Hi. apply (HX pr q i); [exact Hq|exact Hi|].
        destruct (one_block d0 _ i O0 ONE Hi) as (S' & J').
        rewrite (proj1 (placed2 d0 d1 d2 pv _ lines i q 0 s1 i j1 pr _ B N2 Hi Hq S' S1 K0 K1 J' J1)). auto. }
      apply Nat.ltb_lt in LT1, Hp.
      destruct k; cbn [points_in points_out nth Nat.sub] in *; rewrite !Nat.leb_refl; cbn [andb]; rewrite !orb_true_r; eexists; (split; [reflexivity|]); cbn [Nat.eqb]; rewrite LT1, Hp, V; reflexivity.
  - specialize (ONE d1 eq_refl). split.
    + intros pr. cbv beta.
      destruct (sizes_cases d0 d1 d2 pv lines (points_in k n) lines (points_out k n) pr O0 O1 N2) as
        [(E1 & E2)|(s0 & s1 & e0 & e1 & f0 & f1 & K0 & K1 & E1 & E2 & Z0 & Z1 & Z2 & Z3)]; rewrite E1, E2; cbn [bind]; unfold local_fftm, along, across.
      * destruct k; discriminate.
      * assert (s1 = 0) by lia. subst s1. rewrite one_size in Z1, Z3 by assumption. injection Z1 as <-. injection Z3 as <-.
        assert (f0 = e0) by congruence. subst f0. cbn [nth Nat.sub].
        destruct k; cbn [points_in points_out nth Nat.sub]; rewrite !Nat.leb_refl; cbn [andb]; rewrite orb_true_r; discriminate.
    + intros q p pr l Hq Hp PL.
      dim d1 (points_out k n) p O1 Hp s1 j1 S1 K1 J1. destruct (dim_home d0 lines q O0 Hq) as (s0 & _ & j0 & e0 & _ & _ & _ & _ & S0 & K0 & _ & J0 & Z0 & LT0 & _).
      rewrite (proj1 (placed2 d0 d1 d2 pv lines _ q p s0 s1 j0 j1 pr l B N2 Hq Hp S0 S1 K0 K1 J0 J1)) in PL. destruct PL as (PN & ->).
      destruct (one_block d1 _ p O1 ONE Hp) as (E & E'). rewrite E in S1. injection S1 as <-. rewrite E' in J1. injection J1 as <-.
      rewrite (sizes_at d0 d1 d2 pv lines (points_in k n) s0 0 e0 (points_in k n) pr N2 ND K0 K1 PN Z0 (one_size _ _ O1 ONE)).
      rewrite (sizes_at d0 d1 d2 pv lines (points_out k n) s0 0 e0 (points_out k n) pr N2 ND K0 K1 PN Z0 (one_size _ _ O1 ONE)).
      cbn [bind]. unfold local_fftm, along, across. cbn [nth Nat.sub].
      assert (V : F n (fun i => x pr [j0; i]) p = F n (a q) p).
      { apply LT. intros i Hi. apply (HX pr q i); [exact Hq|exact Hi|].
        destruct (one_block d1 _ i O1 ONE Hi) as (S' & J').
        rewrite (proj1 (placed2 d0 d1 d2 pv lines _ q i s0 0 j0 i pr _ B N2 Hq Hi S0 S' K0 K1 J0 J')). auto. }
      apply Nat.ltb_lt in LT0, Hp.
      destruct k; cbn [points_in points_out nth Nat.sub] in *; rewrite !Nat.leb_refl; cbn [andb]; rewrite !orb_true_r; eexists; (split; [reflexivity|]); cbn [Nat.eqb]; rewrite LT0, Hp, V; reflexivity.
Qed.
End OK.

Lemma fftm_maps {X Y} (F : nat -> (nat -> X) -> nat -> Y) k axis mout lout min lin x :
  (exists out, fftm_assign F k axis mout lout min lin x = Some out) <-> u_d min = u_d mout /\ u_pvec min = u_pvec mout.
Proof.
  unfold fftm_assign. split.
  - intros (out & H). destruct (map_eq mout min) eqn:E; [|discriminate]. apply same_maps in E. subst. auto.
  - intros (E1 & E2). assert (min = mout) as -> by (destruct min, mout; cbn in *; congruence).
    assert (map_eq mout mout = true) as ->; [|eauto].
    unfold map_eq. apply andb_true_intro. split.
    + clear. induction (u_d mout) as [|d ds IH]; [reflexivity|]. cbn [dists_eq]. rewrite !Nat.eqb_refl, IH. reflexivity.
    + clear. induction (u_pvec mout) as [|p ps IH]; [reflexivity|]. cbn [list_eqb]. rewrite Nat.eqb_refl. exact IH.
Qed.
