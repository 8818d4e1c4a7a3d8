(** Lemmas for the slice part of SubMap.v. *)
From Coq Require Import ZArith List Arith Lia Bool.
From Verif Require Import Base Dist DistProofs Traversal Map MapProofs Domain SubMap SubMapProofs.
Import ListNotations.
Local Open Scope nat_scope.

Lemma read_procs_ok u f : forall n pi, (forall i, pi <= i < pi + n -> f i < length (u_pvec u)) ->
  exists pv, read_procs u f pi n = Some pv /\ length pv = n /\
    forall i, i < n -> nth_error pv i = nth_error (u_pvec u) (f (pi + i)).
Proof.
  induction n as [|n IH]; intros pi H.
  - exists []. repeat split. intros i Hi. lia.
  - destruct (IH (pi + 1)) as (pv & E & L & N). { intros i Hi. apply H. lia. }
    cbn [read_procs]. destruct (nth_error (u_pvec u) (f pi)) as [p|] eqn:P.
    2:{ apply nth_error_None in P. specialize (H pi ltac:(lia)). lia. }
    cbn [bind]. rewrite E. cbn [bind]. exists (p :: pv). split; [reflexivity|]. split; [cbn; lia|].
    intros [|i] Hi; cbn [nth_error]; [rewrite Nat.add_0_r; congruence|]. rewrite N by lia. do 2 f_equal. lia.
Qed.

Lemma make_map_ok procs ds : Forall (fun d => dist_ok d = true) ds -> length procs = prod (map num_subblocks ds) ->
  make_map procs ds = Some {| u_d := ds; u_pvec := procs |} /\ built {| u_d := ds; u_pvec := procs |}.
Proof.
  intros F L. unfold make_map. rewrite <- L, Nat.leb_refl, firstn_all. split; [reflexivity|].
  split; [exact F|]. cbn. exact L.
Qed.

(** One dimension: the subblock and local index of an index. *)
Lemma dim1 d n i : dist_ok d = true -> i < n -> exists s j, subblock_from_index d n i = Some s /\ s < num_subblocks d /\
  local_from_global_index d n i = Some j.
Proof.
  intros H L. destruct (dim_home d n i H L) as (sb & p & j & s & k & f & lf & l & A1 & A2 & A3 & A4 & _). eauto.
Qed.

Lemma placed_eval u lens m g sbs js pr l : built u -> apply_map u lens = Some m -> dim_subblocks m g = Some sbs ->
  Forall2 lt sbs (subblocks m) -> map_local_from_global_index m g = Some js ->
  (placed u lens g pr l <-> nth_error (u_pvec u) (horner 0 (subblocks m) sbs) = Some pr /\ l = js).
Proof.
  intros B A D F J. pose proof (horner_bound _ _ F) as HB. pose proof (subblock_ok m sbs g F D) as SB.
  assert (P : map_processors m (u_pvec u) (horner 0 (subblocks m) sbs)
              = match nth_error (u_pvec u) (horner 0 (subblocks m) sbs) with Some p => Some [p] | None => None end).
  { unfold map_processors. change (prod (subblocks m)) with (map_num_subblocks m) in HB.
    assert (_ <? map_num_subblocks m = true) as -> by (apply Nat.ltb_lt; exact HB).
    rewrite Nat.mod_small by exact HB. destruct (nth_error _ _); reflexivity. }
  unfold placed. split.
  - intros (m' & sb & ps & E1 & E2 & E3 & E4 & E5). rewrite A in E1. injection E1 as <-. rewrite SB in E2. injection E2 as <-.
    rewrite J in E5. injection E5 as <-. rewrite P in E3. destruct (nth_error _ _); [|discriminate]. injection E3 as <-.
    destruct E4 as [<- | []]. auto.
  - intros [N ->]. rewrite N in P. exists m, (horner 0 (subblocks m) sbs), [pr]. repeat split; auto. left. reflexivity.
Qed.

Ltac range_inv := repeat match goal with H : in_range (_ :: _) _ |- _ => inversion H; subst; clear H | H : in_range [] _ |- _ => inversion H; subst; clear H
  | H : Forall2 _ _ (_ :: _) |- _ => inversion H; subst; clear H | H : Forall2 _ _ [] |- _ => inversion H; subst; clear H end.

Ltac dim d n i H L s j A B C := destruct (dim1 d n i H L) as (s & j & A & B & C).

(** Placement in three dimensions and, with an undivided rest, in two and one. *)
Lemma placed3 d0 d1 d2 pv n0 n1 n2 i0 i1 i2 s0 s1 s2 j0 j1 j2 pr l :
  built {| u_d := [d0; d1; d2]; u_pvec := pv |} -> i0 < n0 -> i1 < n1 -> i2 < n2 ->
  subblock_from_index d0 n0 i0 = Some s0 -> subblock_from_index d1 n1 i1 = Some s1 -> subblock_from_index d2 n2 i2 = Some s2 ->
  s0 < num_subblocks d0 -> s1 < num_subblocks d1 -> s2 < num_subblocks d2 ->
  local_from_global_index d0 n0 i0 = Some j0 -> local_from_global_index d1 n1 i1 = Some j1 -> local_from_global_index d2 n2 i2 = Some j2 ->
  (placed {| u_d := [d0; d1; d2]; u_pvec := pv |} [n0; n1; n2] [i0; i1; i2] pr l <->
   nth_error pv ((s0 * num_subblocks d1 + s1) * num_subblocks d2 + s2) = Some pr /\ l = [j0; j1; j2]) /\
  map_subblock_from_global_index [(d0, n0); (d1, n1); (d2, n2)] [i0; i1; i2] = Some ((s0 * num_subblocks d1 + s1) * num_subblocks d2 + s2).
Proof.
  intros B L0 L1 L2 S0 S1 S2 K0 K1 K2 J0 J1 J2.
  assert (D : dim_subblocks [(d0, n0); (d1, n1); (d2, n2)] [i0; i1; i2] = Some [s0; s1; s2]).
  { unfold dim_subblocks. cbn [omap2 fst snd]. apply Nat.ltb_lt in L0, L1, L2. rewrite L0, L1, L2, S0, S1, S2. reflexivity. }
  assert (F : Forall2 lt [s0; s1; s2] (subblocks [(d0, n0); (d1, n1); (d2, n2)])) by (repeat constructor; assumption).
  split.
  - rewrite (placed_eval _ _ [(d0, n0); (d1, n1); (d2, n2)] _ [s0; s1; s2] [j0; j1; j2] pr l B); auto.
    + reflexivity.
    + unfold map_local_from_global_index. cbn [omap2 fst snd]. rewrite J0, J1, J2. reflexivity.
  - rewrite (subblock_ok _ _ _ F D). reflexivity.
Qed.

Lemma placed2 d0 d1 d2 pv n0 n1 i0 i1 s0 s1 j0 j1 pr l :
  built {| u_d := [d0; d1; d2]; u_pvec := pv |} -> num_subblocks d2 = 1 -> i0 < n0 -> i1 < n1 ->
  subblock_from_index d0 n0 i0 = Some s0 -> subblock_from_index d1 n1 i1 = Some s1 ->
  s0 < num_subblocks d0 -> s1 < num_subblocks d1 ->
  local_from_global_index d0 n0 i0 = Some j0 -> local_from_global_index d1 n1 i1 = Some j1 ->
  (placed {| u_d := [d0; d1; d2]; u_pvec := pv |} [n0; n1] [i0; i1] pr l <->
   nth_error pv (s0 * num_subblocks d1 + s1) = Some pr /\ l = [j0; j1]) /\
  map_subblock_from_global_index [(d0, n0); (d1, n1)] [i0; i1] = Some (s0 * num_subblocks d1 + s1).
Proof.
  intros B N L0 L1 S0 S1 K0 K1 J0 J1.
  assert (D : dim_subblocks [(d0, n0); (d1, n1)] [i0; i1] = Some [s0; s1]).
  { unfold dim_subblocks. cbn [omap2 fst snd]. apply Nat.ltb_lt in L0, L1. rewrite L0, L1, S0, S1. reflexivity. }
  assert (F : Forall2 lt [s0; s1] (subblocks [(d0, n0); (d1, n1)])) by (repeat constructor; assumption).
  split.
  - rewrite (placed_eval _ _ [(d0, n0); (d1, n1)] _ [s0; s1] [j0; j1] pr l B); auto.
    + reflexivity.
    + unfold apply_map. cbn [u_d length Nat.leb skipn forallb]. rewrite N. reflexivity.
    + unfold map_local_from_global_index. cbn [omap2 fst snd]. rewrite J0, J1. reflexivity.
  - rewrite (subblock_ok _ _ _ F D). reflexivity.
Qed.

Lemma placed1 d0 d1 d2 pv n0 i0 s0 j0 pr l :
  built {| u_d := [d0; d1; d2]; u_pvec := pv |} -> num_subblocks d1 = 1 -> num_subblocks d2 = 1 -> i0 < n0 ->
  subblock_from_index d0 n0 i0 = Some s0 -> s0 < num_subblocks d0 -> local_from_global_index d0 n0 i0 = Some j0 ->
  (placed {| u_d := [d0; d1; d2]; u_pvec := pv |} [n0] [i0] pr l <-> nth_error pv s0 = Some pr /\ l = [j0]) /\
  map_subblock_from_global_index [(d0, n0)] [i0] = Some s0.
Proof.
  intros B N1 N2 L0 S0 K0 J0.
  assert (D : dim_subblocks [(d0, n0)] [i0] = Some [s0]).
  { unfold dim_subblocks. cbn [omap2 fst snd]. apply Nat.ltb_lt in L0. rewrite L0, S0. reflexivity. }
  assert (F : Forall2 lt [s0] (subblocks [(d0, n0)])) by (repeat constructor; assumption).
  split.
  - rewrite (placed_eval _ _ [(d0, n0)] _ [s0] [j0] pr l B); auto.
    + reflexivity.
    + unfold apply_map. cbn [u_d length Nat.leb skipn forallb]. rewrite N1, N2. reflexivity.
    + unfold map_local_from_global_index. cbn [omap2 fst snd]. rewrite J0. reflexivity.
  - rewrite (subblock_ok _ _ _ F D). reflexivity.
Qed.

(** What is claimed of a slice. *)
Definition slice_good (D : nat) (u : umap) (lens : list nat) (idx : nat) (m : dims) : Prop :=
  exists u' m' li, project1 D u lens idx = Some u' /\ built u' /\ length (u_d u') = 3 /\
    apply_map u' (remove_at D lens) = Some m' /\
    (forall g pr l, in_range (remove_at D lens) g ->
       (placed u' (remove_at D lens) g pr l <-> placed u lens (insert_at D idx g) pr (insert_at D li l))) /\
    (forall g, in_range (remove_at D lens) g -> exists sb' sb,
       map_subblock_from_global_index m' g = Some sb' /\ parent_subblock1 D u lens idx sb' = Some sb /\
       map_subblock_from_global_index m (insert_at D idx g) = Some sb) /\
    (forall pr, In pr (u_pvec u') -> slice_local_index D u u' lens idx pr = Some (Some li)) /\
    (forall pr, ~ In pr (u_pvec u') -> slice_local_index D u u' lens idx pr = Some None).

Lemma slice_idx_ok D u u' lens idx d n li : nth_error (u_d u) D = Some d -> nth_error lens D = Some n ->
  local_from_global_index d n idx = Some li ->
  (forall pr, In pr (u_pvec u') -> slice_local_index D u u' lens idx pr = Some (Some li)) /\
  (forall pr, ~ In pr (u_pvec u') -> slice_local_index D u u' lens idx pr = Some None).
Proof.
  intros A B C. unfold slice_local_index. split; intros pr H.
  - destruct (rank_from_proc (u_pvec u') pr) eqn:E.
    + rewrite A, B. cbn [bind]. rewrite C. reflexivity.
    + apply rank_none in E. contradiction.
  - apply rank_none in H. rewrite H. reflexivity.
Qed.

Lemma lt_mul_add a b c d : a < c -> b < d -> a * d + b < c * d.
Proof. intros H1 H2. assert ((a + 1) * d <= c * d) by (apply Nat.mul_le_mono_r; lia). lia. Qed.

Lemma divmod_of a b n : b < n -> (a * n + b) / n = a /\ (a * n + b) mod n = b.
Proof. intros H. split; [rewrite Nat.div_add_l, Nat.div_small by lia; lia|rewrite Nat.add_comm, Nat.mod_add, Nat.mod_small by lia; reflexivity]. Qed.

Lemma list1_eq {A} D (x : A) (l : list A) (y : list A) a b : insert_at D x l = y -> y = insert_at D a b -> D <= length l -> D <= length b -> x = a /\ l = b.
Proof.
  unfold insert_at. intros <- E H1 H2.
  assert (L : length (firstn D l) = length (firstn D b)) by (rewrite !firstn_length; lia).
  assert (X : firstn D l = firstn D b /\ x :: skipn D l = a :: skipn D b).
  { revert E L. generalize (firstn D l) (firstn D b) (x :: skipn D l) (a :: skipn D b). clear.
    induction l as [|p l IH]; intros [|q r] t v E L; cbn in *; try discriminate; [auto|]. injection E as -> E.
    destruct (IH r t v E ltac:(lia)) as [-> ->]. auto. }
  destruct X as [X1 X2]. injection X2 as -> X2. split; [reflexivity|].
  rewrite <- (firstn_skipn D l), <- (firstn_skipn D b). congruence.
Qed.

Ltac eq_l l := destruct l as [|? [|? [|? [|? ?]]]]; cbn [insert_at firstn skipn app];
  split; intros [? ?]; split; try assumption; congruence.

Lemma slice_lemma D u lens m n idx : built u -> length (u_d u) = 3 -> apply_map u lens = Some m ->
  2 <= length lens -> nth_error lens D = Some n -> idx < n -> slice_good D u lens idx m.
Proof.
  intros B L3 A L2 E Li. destruct u as [ds pv]. cbn [u_d] in L3.
  destruct ds as [|d0 [|d1 [|d2 [|]]]]; try discriminate. clear L3.
  pose proof B as (Bd & Bp). unfold u_num in Bp. cbn [u_d u_pvec map prod fold_right] in Bd, Bp.
  inversion Bd as [|? ? O0 Bd1]. inversion Bd1 as [|? ? O1 Bd2]. inversion Bd2 as [|? ? O2 _]. subst. clear Bd Bd1 Bd2.
  rewrite Nat.mul_1_r in Bp.
  assert (W : dist_ok (Block 1) = true) by reflexivity.
  destruct lens as [|n0 [|n1 [|n2 [|]]]]; cbn in L2; try lia.
  - (* matrix *)
    unfold apply_map in A. cbn [u_d length Nat.leb skipn forallb] in A.
    destruct (Nat.eqb_spec (num_subblocks d2) 1) as [N2|]; [|discriminate]. injection A as <-. cbn [combine].
    destruct D as [|[|D]]; cbn [nth_error] in E; [| |destruct D; discriminate]; injection E as ->.
    + dim d0 n idx O0 Li f li F1 F2 F3.
      destruct (read_procs_ok {| u_d := [d0; d1; d2]; u_pvec := pv |} (fun pi => f * num_subblocks d1 * num_subblocks d2 + pi)
                 (num_subblocks d1 * num_subblocks d2) 0) as (pv' & R1 & R2 & R3).
      { intros i Hi. cbn [u_pvec]. rewrite Bp, <- Nat.mul_assoc. apply lt_mul_add; lia. }
      destruct (make_map_ok pv' [d1; d2; Block 1]) as [M1 M2].
      { repeat constructor; assumption. } { rewrite R2. cbn. lia. }
      exists {| u_d := [d1; d2; Block 1]; u_pvec := pv' |}, [(d1, n1)], li.
      split. { unfold project1, dim_subblock_from_index. cbn [u_d nth_error bind]. rewrite F1. cbn [bind]. rewrite R1. exact M1. }
      split; [exact M2|]. split; [reflexivity|].
      split. { unfold apply_map, remove_at. cbn. rewrite N2. reflexivity. }
      split; [|split; [|apply (slice_idx_ok _ _ _ _ _ d0 n); auto]].
      * intros g pr l Hg. unfold remove_at in *. cbn [firstn skipn app] in *. range_inv.
        dim d1 n1 x O1 H2 s1 j1 S1 S2 S3.
        rewrite (proj1 (placed1 d1 d2 (Block 1) pv' n1 x s1 j1 pr l M2 N2 eq_refl H2 S1 S2 S3)).
        cbn [insert_at firstn skipn app].
        rewrite (proj1 (placed2 d0 d1 d2 pv n n1 idx x f s1 li j1 pr (li :: l) B N2 Li H2 F1 S1 F2 S2 F3 S3)).
        rewrite R3 by lia. cbn [u_pvec Nat.add]. rewrite N2, Nat.mul_1_r. eq_l l.
      * intros g Hg. unfold remove_at in *. cbn [firstn skipn app] in *. range_inv.
        dim d1 n1 x O1 H2 s1 j1 S1 S2 S3. eexists _, _.
        split; [exact (proj2 (placed1 d1 d2 (Block 1) pv' n1 x s1 j1 0 [] M2 N2 eq_refl H2 S1 S2 S3))|].
        split; [unfold parent_subblock1, dim_subblock_from_index; cbn [u_d nth_error bind]; rewrite F1; cbn [bind]; reflexivity|].
        cbn [insert_at firstn skipn app].
        rewrite (proj2 (placed2 d0 d1 d2 pv n n1 idx x f s1 li j1 0 [] B N2 Li H2 F1 S1 F2 S2 F3 S3)).
        rewrite N2, Nat.mul_1_r. reflexivity.
    + dim d1 n idx O1 Li f li F1 F2 F3.
      destruct (read_procs_ok {| u_d := [d0; d1; d2]; u_pvec := pv |}
                 (fun pi => pi / num_subblocks d2 * num_subblocks d1 * num_subblocks d2 + f * num_subblocks d2 + pi mod num_subblocks d2)
                 (num_subblocks d0 * num_subblocks d2) 0) as (pv' & R1 & R2 & R3).
      { intros i Hi. cbn [u_pvec]. rewrite Bp, N2, Nat.div_1_r, Nat.mod_1_r, !Nat.mul_1_r, Nat.add_0_r. apply lt_mul_add; lia. }
      destruct (make_map_ok pv' [d0; d2; Block 1]) as [M1 M2].
      { repeat constructor; assumption. } { rewrite R2. cbn. lia. }
      exists {| u_d := [d0; d2; Block 1]; u_pvec := pv' |}, [(d0, n0)], li.
      split. { unfold project1, dim_subblock_from_index. cbn [u_d nth_error bind]. rewrite F1. cbn [bind].
               destruct (Nat.eqb_spec (num_subblocks d2) 0); [lia|]. cbn [negb]. rewrite R1. exact M1. }
      split; [exact M2|]. split; [reflexivity|].
      split. { unfold apply_map, remove_at. cbn. rewrite N2. reflexivity. }
      split; [|split; [|apply (slice_idx_ok _ _ _ _ _ d1 n); auto]].
      * intros g pr l Hg. unfold remove_at in *. cbn [firstn skipn app] in *. range_inv.
        dim d0 n0 x O0 H2 s0 j0 S1 S2 S3.
        rewrite (proj1 (placed1 d0 d2 (Block 1) pv' n0 x s0 j0 pr l M2 N2 eq_refl H2 S1 S2 S3)).
        cbn [insert_at firstn skipn app].
        rewrite (proj1 (placed2 d0 d1 d2 pv n0 n x idx s0 f j0 li pr _ B N2 H2 Li S1 F1 S2 F2 S3 F3)).
        rewrite R3 by lia. cbn [u_pvec Nat.add]. rewrite N2, Nat.div_1_r, Nat.mod_1_r, !Nat.mul_1_r, Nat.add_0_r. eq_l l.
      * intros g Hg. unfold remove_at in *. cbn [firstn skipn app] in *. range_inv.
        dim d0 n0 x O0 H2 s0 j0 S1 S2 S3. eexists _, _.
        split; [exact (proj2 (placed1 d0 d2 (Block 1) pv' n0 x s0 j0 0 [] M2 N2 eq_refl H2 S1 S2 S3))|].
        split; [unfold parent_subblock1, dim_subblock_from_index, cdiv, cmod; cbn [u_d nth_error bind]; rewrite F1; cbn [bind]; rewrite N2; cbn [Nat.eqb bind]; reflexivity|].
        cbn [insert_at firstn skipn app].
        rewrite (proj2 (placed2 d0 d1 d2 pv n0 n x idx s0 f j0 li 0 [] B N2 H2 Li S1 F1 S2 F2 S3 F3)).
        rewrite Nat.div_1_r, Nat.mod_1_r, !Nat.mul_1_r, Nat.add_0_r. reflexivity.
  - (* tensor *)
    unfold apply_map in A. cbn in A. injection A as <-.
    destruct D as [|[|[|D]]]; cbn [nth_error] in E; [| | |destruct D; discriminate]; injection E as ->.
    + dim d0 n idx O0 Li f li F1 F2 F3.
      destruct (read_procs_ok {| u_d := [d0; d1; d2]; u_pvec := pv |} (fun pi => f * num_subblocks d1 * num_subblocks d2 + pi)
                 (num_subblocks d1 * num_subblocks d2) 0) as (pv' & R1 & R2 & R3).
      { intros i Hi. cbn [u_pvec]. rewrite Bp, <- Nat.mul_assoc. apply lt_mul_add; lia. }
      destruct (make_map_ok pv' [d1; d2; Block 1]) as [M1 M2].
      { repeat constructor; assumption. } { rewrite R2. cbn. lia. }
      exists {| u_d := [d1; d2; Block 1]; u_pvec := pv' |}, [(d1, n1); (d2, n2)], li.
      split. { unfold project1, dim_subblock_from_index. cbn [u_d nth_error bind]. rewrite F1. cbn [bind]. rewrite R1. exact M1. }
      split; [exact M2|]. split; [reflexivity|].
      split; [reflexivity|].
      split; [|split; [|apply (slice_idx_ok _ _ _ _ _ d0 n); auto]].
      * intros g pr l Hg. unfold remove_at in *. cbn [firstn skipn app] in *. range_inv.
        match goal with H : ?a < n1, H' : ?b < n2 |- _ => dim d1 n1 a O1 H s1 j1 S1 S2 S3; dim d2 n2 b O2 H' s2 j2 T1 T2 T3;
          rewrite (proj1 (placed2 d1 d2 (Block 1) pv' n1 n2 a b s1 s2 j1 j2 pr l M2 eq_refl H H' S1 T1 S2 T2 S3 T3));
          cbn [insert_at firstn skipn app];
          rewrite (proj1 (placed3 d0 d1 d2 pv n n1 n2 idx a b f s1 s2 li j1 j2 pr (li :: l) B Li H H' F1 S1 T1 F2 S2 T2 F3 S3 T3)) end.
        rewrite R3 by (apply lt_mul_add; lia). cbn [u_pvec Nat.add].
        replace (f * num_subblocks d1 * num_subblocks d2 + (s1 * num_subblocks d2 + s2)) with ((f * num_subblocks d1 + s1) * num_subblocks d2 + s2) by lia.
        eq_l l.
      * intros g Hg. unfold remove_at in *. cbn [firstn skipn app] in *. range_inv.
        match goal with H : ?a < n1, H' : ?b < n2 |- _ => dim d1 n1 a O1 H s1 j1 S1 S2 S3; dim d2 n2 b O2 H' s2 j2 T1 T2 T3; eexists _, _;
          split; [exact (proj2 (placed2 d1 d2 (Block 1) pv' n1 n2 a b s1 s2 j1 j2 0 [] M2 eq_refl H H' S1 T1 S2 T2 S3 T3))|];
          split; [unfold parent_subblock1, dim_subblock_from_index; cbn [u_d nth_error bind]; rewrite F1; cbn [bind]; reflexivity|];
          cbn [insert_at firstn skipn app];
          rewrite (proj2 (placed3 d0 d1 d2 pv n n1 n2 idx a b f s1 s2 li j1 j2 0 [] B Li H H' F1 S1 T1 F2 S2 T2 F3 S3 T3)) end.
        f_equal. lia.
    + dim d1 n idx O1 Li f li F1 F2 F3.
      destruct (Nat.eqb_spec (num_subblocks d2) 0) as [Z2|Z2].
      { exfalso. destruct d2; cbn in O2, Z2; subst; discriminate. }
      destruct (read_procs_ok {| u_d := [d0; d1; d2]; u_pvec := pv |}
                 (fun pi => pi / num_subblocks d2 * num_subblocks d1 * num_subblocks d2 + f * num_subblocks d2 + pi mod num_subblocks d2)
                 (num_subblocks d0 * num_subblocks d2) 0) as (pv' & R1 & R2 & R3).
      { intros i Hi. cbn [u_pvec]. rewrite Bp.
        assert (i / num_subblocks d2 < num_subblocks d0) by (apply Nat.div_lt_upper_bound; lia).
        pose proof (Nat.mod_upper_bound i (num_subblocks d2) Z2).
        rewrite Nat.mul_assoc, <- Nat.mul_add_distr_r. apply lt_mul_add; [apply lt_mul_add; lia|lia]. }
      destruct (make_map_ok pv' [d0; d2; Block 1]) as [M1 M2].
      { repeat constructor; assumption. } { rewrite R2. cbn. lia. }
      exists {| u_d := [d0; d2; Block 1]; u_pvec := pv' |}, [(d0, n0); (d2, n2)], li.
      split. { unfold project1, dim_subblock_from_index. cbn [u_d nth_error bind]. rewrite F1. cbn [bind].
               destruct (Nat.eqb_spec (num_subblocks d2) 0); [lia|]. cbn [negb]. rewrite R1. exact M1. }
      split; [exact M2|]. split; [reflexivity|]. split; [reflexivity|].
      split; [|split; [|apply (slice_idx_ok _ _ _ _ _ d1 n); auto]].
      * intros g pr l Hg. unfold remove_at in *. cbn [firstn skipn app] in *. range_inv.
        match goal with H : ?a < n0, H' : ?b < n2 |- _ => dim d0 n0 a O0 H s1 j1 S1 S2 S3; dim d2 n2 b O2 H' s2 j2 T1 T2 T3;
          rewrite (proj1 (placed2 d0 d2 (Block 1) pv' n0 n2 a b s1 s2 j1 j2 pr l M2 eq_refl H H' S1 T1 S2 T2 S3 T3));
          cbn [insert_at firstn skipn app];
          rewrite (proj1 (placed3 d0 d1 d2 pv n0 n n2 a idx b s1 f s2 j1 li j2 pr _ B H Li H' S1 F1 T1 S2 F2 T2 S3 F3 T3)) end.
        rewrite R3 by (apply lt_mul_add; lia). cbn [u_pvec Nat.add].
        destruct (divmod_of s1 s2 (num_subblocks d2) T2) as [-> ->].
        replace (s1 * num_subblocks d1 * num_subblocks d2 + f * num_subblocks d2 + s2) with ((s1 * num_subblocks d1 + f) * num_subblocks d2 + s2) by lia.
        eq_l l.
      * intros g Hg. unfold remove_at in *. cbn [firstn skipn app] in *. range_inv.
        match goal with H : ?a < n0, H' : ?b < n2 |- _ => dim d0 n0 a O0 H s1 j1 S1 S2 S3; dim d2 n2 b O2 H' s2 j2 T1 T2 T3; eexists _, _;
          split; [exact (proj2 (placed2 d0 d2 (Block 1) pv' n0 n2 a b s1 s2 j1 j2 0 [] M2 eq_refl H H' S1 T1 S2 T2 S3 T3))|];
          split; [unfold parent_subblock1, dim_subblock_from_index, cdiv, cmod; cbn [u_d nth_error bind]; rewrite F1; cbn [bind];
                  destruct (Nat.eqb_spec (num_subblocks d2) 0); [lia|]; cbn [bind]; reflexivity|];
          cbn [insert_at firstn skipn app];
          rewrite (proj2 (placed3 d0 d1 d2 pv n0 n n2 a idx b s1 f s2 j1 li j2 0 [] B H Li H' S1 F1 T1 S2 F2 T2 S3 F3 T3)) end.
        destruct (divmod_of s1 s2 (num_subblocks d2) T2) as [-> ->]. f_equal. lia.
    + dim d2 n idx O2 Li f li F1 F2 F3.
      destruct (Nat.eqb_spec (num_subblocks d1) 0) as [Z1|Z1].
      { exfalso. destruct d1; cbn in O1, Z1; subst; discriminate. }
      destruct (read_procs_ok {| u_d := [d0; d1; d2]; u_pvec := pv |}
                 (fun pi => pi / num_subblocks d1 * num_subblocks d1 * num_subblocks d2 + pi mod num_subblocks d1 * num_subblocks d2 + f)
                 (num_subblocks d0 * num_subblocks d1) 0) as (pv' & R1 & R2 & R3).
      { intros i Hi. cbn [u_pvec]. rewrite Bp.
        assert (i / num_subblocks d1 < num_subblocks d0) by (apply Nat.div_lt_upper_bound; lia).
        pose proof (Nat.mod_upper_bound i (num_subblocks d1) Z1).
        rewrite Nat.mul_assoc, <- Nat.mul_add_distr_r. apply lt_mul_add; [apply lt_mul_add; lia|lia]. }
      destruct (make_map_ok pv' [d0; d1; Block 1]) as [M1 M2].
      { repeat constructor; assumption. } { rewrite R2. cbn. lia. }
      exists {| u_d := [d0; d1; Block 1]; u_pvec := pv' |}, [(d0, n0); (d1, n1)], li.
      split. { unfold project1, dim_subblock_from_index. cbn [u_d nth_error bind]. rewrite F1. cbn [bind].
               destruct (Nat.eqb_spec (num_subblocks d1) 0); [lia|]. cbn [negb]. rewrite R1. exact M1. }
      split; [exact M2|]. split; [reflexivity|]. split; [reflexivity|].
      split; [|split; [|apply (slice_idx_ok _ _ _ _ _ d2 n); auto]].
      * intros g pr l Hg. unfold remove_at in *. cbn [firstn skipn app] in *. range_inv.
        match goal with H : ?a < n0, H' : ?b < n1 |- _ => dim d0 n0 a O0 H s1 j1 S1 S2 S3; dim d1 n1 b O1 H' s2 j2 T1 T2 T3;
          rewrite (proj1 (placed2 d0 d1 (Block 1) pv' n0 n1 a b s1 s2 j1 j2 pr l M2 eq_refl H H' S1 T1 S2 T2 S3 T3));
          cbn [insert_at firstn skipn app];
          rewrite (proj1 (placed3 d0 d1 d2 pv n0 n1 n a b idx s1 s2 f j1 j2 li pr _ B H H' Li S1 T1 F1 S2 T2 F2 S3 T3 F3)) end.
        rewrite R3 by (apply lt_mul_add; lia). cbn [u_pvec Nat.add].
        destruct (divmod_of s1 s2 (num_subblocks d1) T2) as [-> ->].
        replace (s1 * num_subblocks d1 * num_subblocks d2 + s2 * num_subblocks d2 + f) with ((s1 * num_subblocks d1 + s2) * num_subblocks d2 + f) by lia.
        eq_l l.
      * intros g Hg. unfold remove_at in *. cbn [firstn skipn app] in *. range_inv.
        match goal with H : ?a < n0, H' : ?b < n1 |- _ => dim d0 n0 a O0 H s1 j1 S1 S2 S3; dim d1 n1 b O1 H' s2 j2 T1 T2 T3; eexists _, _;
          split; [exact (proj2 (placed2 d0 d1 (Block 1) pv' n0 n1 a b s1 s2 j1 j2 0 [] M2 eq_refl H H' S1 T1 S2 T2 S3 T3))|];
          split; [unfold parent_subblock1, dim_subblock_from_index, cdiv, cmod; cbn [u_d nth_error bind]; rewrite F1; cbn [bind];
                  destruct (Nat.eqb_spec (num_subblocks d1) 0); [lia|]; cbn [bind]; reflexivity|];
          cbn [insert_at firstn skipn app];
          rewrite (proj2 (placed3 d0 d1 d2 pv n0 n1 n a b idx s1 s2 f j1 j2 li 0 [] B H H' Li S1 T1 F1 S2 T2 F2 S3 T3 F3)) end.
        destruct (divmod_of s1 s2 (num_subblocks d1) T2) as [-> ->]. f_equal. lia.
  - unfold apply_map in A. cbn in A. discriminate.
Qed.

(** Two indices fixed. *)
Definition slice2_good (D1 D2 D3 : nat) (u : umap) (n0 n1 n2 n3 i1 i2 : nat) : Prop :=
  exists u' li1 li2 d, project2 D1 D2 u [n0; n1; n2] i1 i2 = Some u' /\ built u' /\ length (u_d u') = 3 /\
    nth_error (u_d u) D3 = Some d /\ apply_map u' [n3] = Some [(d, n3)] /\
    (forall g pr l, g < n3 ->
       (placed u' [n3] [g] pr [l] <->
        placed u [n0; n1; n2] (insert_at D2 i2 (insert_at D1 i1 [g])) pr (insert_at D2 li2 (insert_at D1 li1 [l])))) /\
    (forall g, g < n3 -> exists sb' sb m,
       map_subblock_from_global_index [(d, n3)] [g] = Some sb' /\
       parent_subblock2 D1 D2 u [n0; n1; n2] i1 i2 sb' = Some sb /\
       apply_map u [n0; n1; n2] = Some m /\
       map_subblock_from_global_index m (insert_at D2 i2 (insert_at D1 i1 [g])) = Some sb).

Lemma slice2_lemma D1 D2 u n0 n1 n2 i1 i2 a1 a2 : built u -> length (u_d u) = 3 -> D1 < D2 ->
  nth_error [n0; n1; n2] D1 = Some a1 -> nth_error [n0; n1; n2] D2 = Some a2 -> i1 < a1 -> i2 < a2 ->
  exists D3 n3, nth_error [n0; n1; n2] D3 = Some n3 /\ D3 <> D1 /\ D3 <> D2 /\ slice2_good D1 D2 D3 u n0 n1 n2 n3 i1 i2.
Proof.
  intros B L3 LD E1 E2 I1 I2. destruct u as [ds pv]. cbn [u_d] in L3.
  destruct ds as [|d0 [|d1 [|d2 [|]]]]; try discriminate. clear L3.
  pose proof B as (Bd & Bp). unfold u_num in Bp. cbn [u_d u_pvec map prod fold_right] in Bd, Bp.
  inversion Bd as [|? ? O0 Bd1]. inversion Bd1 as [|? ? O1 Bd2]. inversion Bd2 as [|? ? O2 _]. subst. clear Bd Bd1 Bd2.
  rewrite Nat.mul_1_r in Bp.
  assert (W : dist_ok (Block 1) = true) by reflexivity.
  destruct D1 as [|[|[|D1]]]; cbn [nth_error] in E1.
  - destruct D2 as [|[|[|D2]]]; [lia| | |destruct D2; discriminate]; cbn [nth_error] in E2; injection E1 as <-; injection E2 as <-.
    + exists 2, n2. split; [reflexivity|]. split; [lia|]. split; [lia|].
      dim d0 n0 i1 O0 I1 f li F1 F2 F3. dim d1 n1 i2 O1 I2 h lj G1 G2 G3.
      destruct (read_procs_ok {| u_d := [d0; d1; d2]; u_pvec := pv |}
                 (fun pi => f * num_subblocks d1 * num_subblocks d2 + h * num_subblocks d2 + pi) (num_subblocks d2) 0) as (pv' & R1 & R2 & R3).
      { intros i Hi. cbn [u_pvec]. rewrite Bp, Nat.mul_assoc, <- Nat.mul_add_distr_r. apply lt_mul_add; [apply lt_mul_add; lia|lia]. }
      destruct (make_map_ok pv' [d2; Block 1; Block 1]) as [M1 M2].
      { repeat constructor; assumption. } { rewrite R2. cbn. lia. }
      exists {| u_d := [d2; Block 1; Block 1]; u_pvec := pv' |}, li, lj, d2.
      split. { unfold project2, dim_subblock_from_index. cbn [u_d nth_error bind]. rewrite F1, G1. cbn [bind]. rewrite R1. exact M1. }
      split; [exact M2|]. split; [reflexivity|]. split; [reflexivity|]. split; [reflexivity|].
      split; cbn [insert_at firstn skipn app].
      * intros g pr l Hg. dim d2 n2 g O2 Hg s j S1 S2 S3.
        rewrite (proj1 (placed1 d2 (Block 1) (Block 1) pv' n2 g s j pr _ M2 eq_refl eq_refl Hg S1 S2 S3)).
        rewrite (proj1 (placed3 d0 d1 d2 pv n0 n1 n2 i1 i2 g f h s li lj j pr _ B I1 I2 Hg F1 G1 S1 F2 G2 S2 F3 G3 S3)).
        rewrite R3 by lia. cbn [u_pvec Nat.add]. rewrite <- Nat.mul_add_distr_r.
        split; intros [? ?]; split; try assumption; congruence.
      * intros g Hg. dim d2 n2 g O2 Hg s j S1 S2 S3. eexists _, _, _.
        split; [exact (proj2 (placed1 d2 (Block 1) (Block 1) pv' n2 g s j 0 [] M2 eq_refl eq_refl Hg S1 S2 S3))|].
        split; [unfold parent_subblock2, dim_subblock_from_index; cbn [u_d nth_error bind]; rewrite F1, G1; cbn [bind]; reflexivity|].
        split; [reflexivity|].
        etransitivity; [exact (proj2 (placed3 d0 d1 d2 pv n0 n1 n2 i1 i2 g f h s li lj j 0 [] B I1 I2 Hg F1 G1 S1 F2 G2 S2 F3 G3 S3))|].
        f_equal. lia.
    + exists 1, n1. split; [reflexivity|]. split; [lia|]. split; [lia|].
      dim d0 n0 i1 O0 I1 f li F1 F2 F3. dim d2 n2 i2 O2 I2 h lj G1 G2 G3.
      destruct (read_procs_ok {| u_d := [d0; d1; d2]; u_pvec := pv |}
                 (fun pi => f * num_subblocks d1 * num_subblocks d2 + pi * num_subblocks d2 + h) (num_subblocks d1) 0) as (pv' & R1 & R2 & R3).
      { intros i Hi. cbn [u_pvec]. rewrite Bp, Nat.mul_assoc, <- Nat.mul_add_distr_r. apply lt_mul_add; [apply lt_mul_add; lia|lia]. }
      destruct (make_map_ok pv' [d1; Block 1; Block 1]) as [M1 M2].
      { repeat constructor; assumption. } { rewrite R2. cbn. lia. }
      exists {| u_d := [d1; Block 1; Block 1]; u_pvec := pv' |}, li, lj, d1.
      split. { unfold project2, dim_subblock_from_index. cbn [u_d nth_error bind]. rewrite F1, G1. cbn [bind]. rewrite R1. exact M1. }
      split; [exact M2|]. split; [reflexivity|]. split; [reflexivity|]. split; [reflexivity|].
      split; cbn [insert_at firstn skipn app].
      * intros g pr l Hg. dim d1 n1 g O1 Hg s j S1 S2 S3.
        rewrite (proj1 (placed1 d1 (Block 1) (Block 1) pv' n1 g s j pr _ M2 eq_refl eq_refl Hg S1 S2 S3)).
        rewrite (proj1 (placed3 d0 d1 d2 pv n0 n1 n2 i1 g i2 f s h li j lj pr _ B I1 Hg I2 F1 S1 G1 F2 S2 G2 F3 S3 G3)).
        rewrite R3 by lia. cbn [u_pvec Nat.add]. rewrite <- Nat.mul_add_distr_r.
        split; intros [? ?]; split; try assumption; congruence.
      * intros g Hg. dim d1 n1 g O1 Hg s j S1 S2 S3. eexists _, _, _.
        split; [exact (proj2 (placed1 d1 (Block 1) (Block 1) pv' n1 g s j 0 [] M2 eq_refl eq_refl Hg S1 S2 S3))|].
        split; [unfold parent_subblock2, dim_subblock_from_index; cbn [u_d nth_error bind]; rewrite F1, G1; cbn [bind]; reflexivity|].
        split; [reflexivity|].
        etransitivity; [exact (proj2 (placed3 d0 d1 d2 pv n0 n1 n2 i1 g i2 f s h li j lj 0 [] B I1 Hg I2 F1 S1 G1 F2 S2 G2 F3 S3 G3))|].
        f_equal. lia.
  - destruct D2 as [|[|[|D2]]]; [lia|lia| |destruct D2; discriminate]; cbn [nth_error] in E2; injection E1 as <-; injection E2 as <-.
    exists 0, n0. split; [reflexivity|]. split; [lia|]. split; [lia|].
    dim d1 n1 i1 O1 I1 f li F1 F2 F3. dim d2 n2 i2 O2 I2 h lj G1 G2 G3.
    destruct (read_procs_ok {| u_d := [d0; d1; d2]; u_pvec := pv |}
               (fun pi => pi * num_subblocks d1 * num_subblocks d2 + f * num_subblocks d2 + h) (num_subblocks d0) 0) as (pv' & R1 & R2 & R3).
    { intros i Hi. cbn [u_pvec]. rewrite Bp, Nat.mul_assoc, <- Nat.mul_add_distr_r. apply lt_mul_add; [apply lt_mul_add; lia|lia]. }
    destruct (make_map_ok pv' [d0; Block 1; Block 1]) as [M1 M2].
    { repeat constructor; assumption. } { rewrite R2. cbn. lia. }
    exists {| u_d := [d0; Block 1; Block 1]; u_pvec := pv' |}, li, lj, d0.
    split. { unfold project2, dim_subblock_from_index. cbn [u_d nth_error bind]. rewrite F1, G1. cbn [bind]. rewrite R1. exact M1. }
    split; [exact M2|]. split; [reflexivity|]. split; [reflexivity|]. split; [reflexivity|].
    split; cbn [insert_at firstn skipn app].
    + intros g pr l Hg. dim d0 n0 g O0 Hg s j S1 S2 S3.
      rewrite (proj1 (placed1 d0 (Block 1) (Block 1) pv' n0 g s j pr _ M2 eq_refl eq_refl Hg S1 S2 S3)).
      rewrite (proj1 (placed3 d0 d1 d2 pv n0 n1 n2 g i1 i2 s f h j li lj pr _ B Hg I1 I2 S1 F1 G1 S2 F2 G2 S3 F3 G3)).
      rewrite R3 by lia. cbn [u_pvec Nat.add]. rewrite <- Nat.mul_add_distr_r.
      split; intros [? ?]; split; try assumption; congruence.
    + intros g Hg. dim d0 n0 g O0 Hg s j S1 S2 S3. eexists _, _, _.
      split; [exact (proj2 (placed1 d0 (Block 1) (Block 1) pv' n0 g s j 0 [] M2 eq_refl eq_refl Hg S1 S2 S3))|].
      split; [unfold parent_subblock2, dim_subblock_from_index; cbn [u_d nth_error bind]; rewrite F1, G1; cbn [bind]; reflexivity|].
      split; [reflexivity|].
      etransitivity; [exact (proj2 (placed3 d0 d1 d2 pv n0 n1 n2 g i1 i2 s f h j li lj 0 [] B Hg I1 I2 S1 F1 G1 S2 F2 G2 S3 F3 G3))|].
      f_equal. lia.
  - destruct D2 as [|[|[|D2]]]; [lia|lia|lia|destruct D2; discriminate].
  - destruct D1; discriminate.
Qed.
