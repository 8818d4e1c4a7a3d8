From Coq Require Import List Arith Lia Bool.
From Verif Require Import Base Dist DistProofs Traversal Map MapProofs Domain SubMap SubMapProofs SliceProofs ParVm.
Import ListNotations.
Local Open Scope nat_scope.

Lemma one_block d n i : dist_ok d = true -> num_subblocks d = 1 -> i < n ->
  subblock_from_index d n i = Some 0 /\ local_from_global_index d n i = Some i.
Proof.
  intros O N L. destruct (dim_home d n i O L) as (sb & p & j & s & k & f & lf & l & A1 & A2 & _ & A4 & _ & _ & _ & _ & _ & _ & _ & _ & G).
  assert (sb = 0) by lia. subst sb. split; [exact A1|]. rewrite A4. f_equal.
  destruct d as [|num|num c]; cbn in N, O, G.
  - destruct (_ && true); [congruence|discriminate].
  - subst num. destruct (cdiv n 1) eqn:E1; [|discriminate]. destruct (cmod n 1) eqn:E2; [|discriminate]. cbn in G. congruence.
  - subst num. assert (0 < c) by (destruct c; [discriminate O|lia]).
    rewrite cdiv_some, cmod_some in G by lia. cbn [bind] in G.
    assert (D := Nat.div_mod j c ltac:(lia)). injection G as G. nia.
Qed.

Lemma list_eqb_iff a b : list_eqb a b = true -> a = b. Proof. apply list_eqb_eq. Qed.

Lemma product_ok {V W X} (mul : V -> W -> X) vd all lhs rows cols v m lv lm x a out :
  vd < 2 -> built lhs -> length (u_d lhs) = 3 -> apply_map lhs [rows; cols] <> None ->
  Forall (fun pr => In pr all) (u_pvec lhs) ->
  has_vector v (if vd =? 0 then cols else rows) lv x -> has_matrix m rows cols lm a ->
  vm_assign mul vd all lhs [rows; cols] v m lv lm = Some out ->
  forall i j pr l, i < rows -> j < cols -> placed lhs [rows; cols] [i; j] pr l ->
  out pr l = Some (mul (x (if vd =? 0 then j else i)) (a i j)).
Proof.
  intros Hvd B L3 AP AL HV HM HO i j pr l Hi Hj PL.
  unfold vm_assign in HO. destruct (vm_same_map vd all lhs [rows; cols] v m) as [b|] eqn:SM; [|discriminate].
  destruct b; [|discriminate]. cbn [bind] in HO. injection HO as <-.
  destruct lhs as [ds pv]. cbn [u_d u_pvec] in *.
  destruct ds as [|d0 [|d1 [|d2 [|]]]]; try discriminate L3. clear L3.
  assert (N2 : num_subblocks d2 = 1).
  { unfold apply_map in AP. cbn [u_d length Nat.leb skipn forallb] in AP. destruct (Nat.eqb_spec (num_subblocks d2) 1); [assumption|contradiction AP; reflexivity]. }
  pose proof B as (Bd & Bp). unfold u_num in Bp. cbn [u_d u_pvec map prod fold_right] in Bd, Bp.
  inversion Bd as [|? ? O0 Bd1]. inversion Bd1 as [|? ? O1 Bd2]. inversion Bd2 as [|? ? O2 _]. subst. clear Bd Bd1 Bd2.
  dim d0 rows i O0 Hi s0 j0 S0 K0 J0. dim d1 cols j O1 Hj s1 j1 S1 K1 J1.
  pose proof PL as PL'. rewrite (proj1 (placed2 d0 d1 d2 pv rows cols i j s0 s1 j0 j1 pr l B N2 Hi Hj S0 S1 K0 K1 J0 J1)) in PL.
  destruct PL as (PN & ->). cbn [local_get].
  assert (InP : In pr all). { rewrite Forall_forall in AL. apply AL. eapply nth_error_In, PN. }
  assert (MM : lm pr [j0; j1] = a i j).
  { apply HM; [exact Hi|exact Hj|].
    assert (E : map_eq {| u_d := [d0; d1; d2]; u_pvec := pv |} m = true).
    { unfold vm_same_map in SM. destruct (dim_blocks _ (1 - vd)) as [nb|]; [|discriminate]. cbn [bind] in SM.
      destruct (map_eq _ m); [reflexivity|]. rewrite andb_false_r in SM.
      destruct (dim_blocks _ vd) as [k|]; [|discriminate]. cbn [bind] in SM. destruct (k =? 1); [|discriminate].
      destruct (project1 _ _ _ _); [|discriminate]. cbn [bind] in SM. rewrite andb_false_r in SM. discriminate. }
    apply (map_eq_lemma _ _ E). exact PL'. }
  rewrite MM.
  assert (VV : lv pr (if vd =? 0 then j1 else j0) = x (if vd =? 0 then j else i)).
  2:{ destruct (vd =? 0); rewrite VV; reflexivity. }
  unfold vm_same_map in SM.
  assert (OR : (v = VRep all /\ num_subblocks (if vd =? 0 then d1 else d0) = 1) \/
    (num_subblocks (if vd =? 0 then d0 else d1) = 1 /\ exists p w, project1 vd {| u_d := [d0; d1; d2]; u_pvec := pv |} [rows; cols] 0 = Some p /\ v = VMap w /\ map_eq p w = true)).
  { assert (Q : forall n e k p', (if everywhere all v && (n =? 1) && e then Some true else if k =? 1 then p <- p' ;; Some (maps_as p v && e) else Some false) = Some true ->
      (v = VRep all /\ n = 1) \/ (k = 1 /\ exists p w, p' = Some p /\ v = VMap w /\ map_eq p w = true)).
    { intros n e k p' Q. destruct (everywhere all v && (n =? 1) && e) eqn:C1.
      - left. apply andb_prop in C1 as [C1 _]. apply andb_prop in C1 as [C1 C2]. destruct v as [p|w]; [|discriminate C1].
        apply list_eqb_eq in C1. subst p. apply Nat.eqb_eq in C2. auto.
      - right. destruct (Nat.eqb_spec k 1) as [K|]; [|discriminate]. split; [exact K|]. destruct p' as [p|]; [|discriminate].
        cbn [bind] in Q. injection Q as Q. apply andb_prop in Q as [Q _]. destruct v as [q|w]; [discriminate Q|]. exists p, w. auto. }
    destruct vd as [|[|vd]]; [| |lia]; cbn [Nat.sub dim_blocks u_d nth_error bind Nat.eqb] in *; exact (Q _ _ _ _ SM). }
  destruct OR as [(-> & N)|(N & p & w & PJ & -> & ME)].
  - cbn [has_vector] in HV. destruct vd as [|[|vd]]; [| |lia]; cbn [Nat.eqb] in *.
    + destruct (one_block d1 cols j O1 N Hj) as (_ & E). rewrite E in J1. injection J1 as <-. apply HV; assumption.
    + destruct (one_block d0 rows i O0 N Hi) as (_ & E). rewrite E in J0. injection J0 as <-. apply HV; assumption.
  - cbn [has_vector] in HV. apply HV; [destruct (vd =? 0); assumption|].
    apply (map_eq_lemma _ _ ME).
    destruct vd as [|[|vd]]; [| |lia]; cbn [Nat.eqb] in *.
    + destruct (one_block d0 rows 0 O0 N ltac:(lia)) as (E0 & _).
      destruct (one_block d0 rows i O0 N Hi) as (E & _). rewrite E in S0. injection S0 as <-. cbn [Nat.mul Nat.add] in PN.
      destruct (read_procs_ok {| u_d := [d0; d1; d2]; u_pvec := pv |} (fun pi => 0 * num_subblocks d1 * num_subblocks d2 + pi)
                 (num_subblocks d1 * num_subblocks d2) 0) as (pv' & R1 & R2 & R3).
      { intros k Hk. cbn [u_pvec]. rewrite Bp. rewrite N2 in *. lia. }
      destruct (make_map_ok pv' [d1; d2; Block 1]) as [M1 M2].
      { repeat constructor; assumption. } { rewrite R2. cbn. lia. }
      unfold project1, dim_subblock_from_index in PJ. cbn [u_d nth_error bind] in PJ. rewrite E0 in PJ. cbn [bind] in PJ. rewrite R1 in PJ. cbn [bind] in PJ.
      rewrite M1 in PJ. injection PJ as <-.
      rewrite (proj1 (placed1 d1 d2 (Block 1) pv' cols j s1 j1 pr [j1] M2 N2 eq_refl Hj S1 K1 J1)).
      split; [|reflexivity]. rewrite R3 by lia. cbn [u_pvec Nat.add Nat.mul]. exact PN.
    + destruct (one_block d1 cols 0 O1 N ltac:(lia)) as (E0 & _).
      destruct (one_block d1 cols j O1 N Hj) as (E & _). rewrite E in S1. injection S1 as <-.
      destruct (read_procs_ok {| u_d := [d0; d1; d2]; u_pvec := pv |}
        (fun pi => pi / num_subblocks d2 * num_subblocks d1 * num_subblocks d2 + 0 * num_subblocks d2 + pi mod num_subblocks d2)
                 (num_subblocks d0 * num_subblocks d2) 0) as (pv' & R1 & R2 & R3).
      { intros k Hk. cbn [u_pvec]. rewrite Bp. rewrite N, N2 in *. rewrite Nat.div_1_r, Nat.mod_1_r. lia. }
      destruct (make_map_ok pv' [d0; d2; Block 1]) as [M1 M2].
      { repeat constructor; assumption. } { rewrite R2. cbn. lia. }
      unfold project1, dim_subblock_from_index in PJ. cbn [u_d nth_error bind] in PJ. rewrite E0 in PJ. cbn [bind] in PJ.
      assert (Z2 : (num_subblocks d2 =? 0) = false) by (apply Nat.eqb_neq; lia). rewrite Z2 in PJ. cbn [negb] in PJ.
      rewrite R1 in PJ. cbn [bind] in PJ. rewrite M1 in PJ. injection PJ as <-.
      rewrite (proj1 (placed1 d0 d2 (Block 1) pv' rows i s0 j0 pr [j0] M2 N2 eq_refl Hi S0 K0 J0)).
      split; [|reflexivity]. rewrite R3 by lia. cbn [u_pvec Nat.add]. rewrite N, N2, Nat.div_1_r, Nat.mod_1_r. rewrite N in PN.
      rewrite !Nat.mul_1_r, Nat.mul_0_l, !Nat.add_0_r in *. exact PN.
Qed.
