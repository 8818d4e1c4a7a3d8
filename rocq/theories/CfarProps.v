(** Theorems about the CFAR detection kernels. *)
From Coq Require Import ZArith List Bool Arith Lia.
From Verif Require Import Base Cfar CfarProofs.
Import ListNotations.
Local Open Scope nat_scope.

(** Missing: the gates where the cells on one side are cut off by the end of the range in part (see the
    refutations).  At all other gates the targets located are those whose power passes the test against the mean
    of exactly the cells within the CFAR gates beyond the guard cells, in order of beams and bins; by each of the
    three kernels, for whatever test. *)
Theorem C102_detects_partial : forall (R : CRing) (hit : R -> R -> nat -> bool) cube beams dbins gates c g columns F0,
  2 * (c + g) < gates -> (forall k n, k < gates -> length (targets hit cube beams dbins gates c g k n) <= columns) ->
  exists F G, by_vector hit cube beams dbins gates c g columns = Some F /\
    by_slice hit cube beams dbins gates c g columns F0 = Some G /\
    forall k, k < gates -> k <= g \/ (g + c < k /\ k + (g + c) < gates) \/ gates <= k + g ->
      F k = targets hit cube beams dbins gates c g k (length (near gates c g k)) /\ G k = (length (F k), F k).
Proof.
  intros R hit cube beams dbins gates c g columns F0 Hb Hl.
  assert (Hl' : forall k, k < gates -> length (goods hit cube beams dbins gates c g k) <= columns)
    by (intros k Hk; rewrite goods_targets by assumption; apply Hl; exact Hk).
  destruct (by_vector_ok hit cube beams dbins gates c g columns Hb Hl') as (F & EF & HF).
  destruct (by_slice_ok hit cube beams dbins gates c g columns Hb F0) as (G & EG & HG).
  exists F, G. split; [exact EF|]. split; [exact EG|]. intros k Hk Hz.
  rewrite HF, HG, firstn_all2, goods_targets, taken_near by auto. auto.
Qed.
Definition exact_hit (p s : Z) (n : nat) : bool := (100 * s <? p * Z.of_nat n)%Z.
Example C102_detects_ex :
  let cube := fun i j k => if (i =? 1) && (j =? 0) && (k =? 3) then 50%Z else if (i =? 0) && (k =? 6) then 40%Z else 1%Z in
  (2 * (2 + 1) < 7 /\ forall k n, k < 7 -> length (targets (R := Zring) exact_hit cube 2 2 7 2 1 k n) <= 4) /\
  option_map (fun F => map F [0; 3; 6]) (by_vector (R := Zring) exact_hit cube 2 2 7 2 1 4) = Some [[]; [(1, 0)]; [(0, 0); (0, 1)]].
Proof.
  cbv zeta. split; [|vm_compute; reflexivity]. split; [lia|]. intros k n _. unfold targets. eapply Nat.le_trans; [apply (List.NoDup_incl_length (l' := list_prod (seq 0 2) (seq 0 2)))|].
  - apply NoDup_filter. cbn. repeat constructor; cbn; intuition congruence.
  - intros x Hx. apply filter_In in Hx. apply Hx.
  - cbn. lia.
Qed.

(** The three kernels find the same targets in the same order, when the bins are a multiple of four. *)
Theorem C102_agree : forall (R : CRing) (hit : R -> R -> nat -> bool) cube beams dbins q gates c g columns F0,
  2 * (c + g) < gates -> dbins = 4 * q ->
  (forall k n, k < gates -> length (targets hit cube beams dbins gates c g k n) <= columns) ->
  exists F F4 G, by_vector hit cube beams dbins gates c g columns = Some F /\
    by_four hit cube beams dbins gates c g columns = Some F4 /\
    by_slice hit cube beams dbins gates c g columns F0 = Some G /\
    forall k, k < gates -> F4 k = F k /\ G k = (length (F k), F k).
Proof.
  intros R hit cube beams dbins q gates c g columns F0 Hb Hq Hl.
  assert (Hl' : forall k, k < gates -> length (goods hit cube beams dbins gates c g k) <= columns)
    by (intros k Hk; rewrite goods_targets by assumption; apply Hl; exact Hk).
  destruct (by_vector_ok hit cube beams dbins gates c g columns Hb Hl') as (F & EF & HF).
  destruct (by_four_ok hit cube beams dbins gates c g columns Hb q Hq Hl') as (F4 & E4 & H4).
  destruct (by_slice_ok hit cube beams dbins gates c g columns Hb F0) as (G & EG & HG).
  exists F, F4, G. split; [exact EF|]. split; [exact E4|]. split; [exact EG|]. intros k Hk.
  rewrite HF, H4, HG, firstn_all2 by auto. auto.
Qed.
Example C102_agree_ex :
  let cube := fun i j k => if (j =? 2) && (k =? 3) then 50%Z else Z.of_nat (1 + (i + j + k) mod 2) in
  option_map (fun F => map F [0; 1; 2; 3; 4; 5; 6]) (by_four (R := Zring) exact_hit cube 2 4 7 2 1 8) = Some [[]; []; []; [(0, 2); (1, 2)]; []; []; []] /\
  option_map (fun F => map F [0; 1; 2; 3; 4; 5; 6]) (by_slice (R := Zring) exact_hit cube 2 4 7 2 1 8 (fun _ => (0, []))) =
    Some [(0, []); (0, []); (0, []); (2, [(0, 2); (1, 2)]); (0, []); (0, []); (0, [])].
Proof. cbv zeta. split; vm_compute; reflexivity. Qed.

(** Defect: where only some of the cells on the left exist, the mean is taken over one cell fewer than were summed,
    so it is too large. *)
Theorem C102_left_refuted : forall (R : CRing) (hit : R -> R -> nat -> bool) cube beams dbins gates c g columns F,
  2 * (c + g) < gates -> (forall k n, k < gates -> length (targets hit cube beams dbins gates c g k n) <= columns) ->
  by_vector hit cube beams dbins gates c g columns = Some F ->
  forall k, g < k -> k <= g + c -> F k = targets hit cube beams dbins gates c g k (length (near gates c g k) - 1).
Proof.
  intros R hit cube beams dbins gates c g columns F Hb Hl EF k H1 H2.
  destruct (by_vector_ok hit cube beams dbins gates c g columns Hb) as (F' & EF' & HF);
    [intros k' Hk; rewrite goods_targets by assumption; apply Hl; exact Hk|].
  rewrite EF in EF'. injection EF' as ->. assert (Hk : k < gates) by lia.
  rewrite HF by exact Hk. rewrite goods_targets by assumption. f_equal. eapply taken_left; eassumption.
Qed.
(** Defect: a target is missed for that reason. *)
Theorem C102_missed_refuted : exists cube F, by_vector (R := Zring) exact_hit cube 1 1 5 1 0 30 = Some F /\
  targets (R := Zring) exact_hit cube 1 1 5 1 0 1 (length (near 5 1 0 1)) = [(0, 0)] /\ F 1 = [].
Proof. exists (fun i j k => if k =? 1 then 12%Z else 1%Z). eexists. split; [vm_compute; reflexivity|]. split; vm_compute; reflexivity. Qed.

(** Defect: where only some of the cells on the right exist, the mean is taken over one cell more than were summed. *)
Theorem C102_right_refuted : forall (R : CRing) (hit : R -> R -> nat -> bool) cube beams dbins gates c g columns F,
  2 * (c + g) < gates -> (forall k n, k < gates -> length (targets hit cube beams dbins gates c g k n) <= columns) ->
  by_vector hit cube beams dbins gates c g columns = Some F ->
  forall k, gates <= k + (g + c) -> k + g < gates -> F k = targets hit cube beams dbins gates c g k (length (near gates c g k) + 1).
Proof.
  intros R hit cube beams dbins gates c g columns F Hb Hl EF k H1 H2.
  destruct (by_vector_ok hit cube beams dbins gates c g columns Hb) as (F' & EF' & HF);
    [intros k' Hk; rewrite goods_targets by assumption; apply Hl; exact Hk|].
  rewrite EF in EF'. injection EF' as ->. assert (Hk : k < gates) by lia.
  rewrite HF by exact Hk. rewrite goods_targets by assumption. f_equal. eapply taken_right; eassumption.
Qed.
(** Defect: a cell that is no target is reported for that reason. *)
Theorem C102_false_alarm_refuted : exists cube F, by_vector (R := Zring) exact_hit cube 1 1 5 1 0 30 = Some F /\
  targets (R := Zring) exact_hit cube 1 1 5 1 0 4 (length (near 5 1 0 4)) = [] /\ F 4 = [(0, 0)].
Proof. exists (fun i j k => if k =? 4 then 9%Z else 1%Z). eexists. split; [vm_compute; reflexivity|]. split; vm_compute; reflexivity. Qed.

(** Limitation: the kernel that handles four bins at a time reads outside the cube unless the bins are a multiple of four. *)
Theorem C102_four_refuted : forall (R : CRing) (hit : R -> R -> nat -> bool) cube beams dbins gates c g columns,
  0 < beams -> dbins mod 4 <> 0 -> by_four hit cube beams dbins gates c g columns = None.
Proof. intros. apply by_four_odd; assumption. Qed.

(** Defect: more targets at a gate than there are columns for (thirty) are stored out of bounds by the kernel for vectors, and
    counted but not stored by that for slices. *)
Theorem C102_columns_refuted : exists cube G, by_vector (R := Zring) exact_hit cube 1 2 5 1 0 1 = None /\
  by_slice (R := Zring) exact_hit cube 1 2 5 1 0 1 (fun _ => (0, [])) = Some G /\ G 2 = (2, [(0, 0)]).
Proof. exists (fun i j k => if k =? 2 then 50%Z else 1%Z). eexists. split; [vm_compute; reflexivity|]. split; vm_compute; reflexivity. Qed.

Print Assumptions C102_detects_partial.
Print Assumptions C102_agree.
Print Assumptions C102_left_refuted.
Print Assumptions C102_missed_refuted.
Print Assumptions C102_right_refuted.
Print Assumptions C102_false_alarm_refuted.
Print Assumptions C102_four_refuted.
Print Assumptions C102_columns_refuted.
