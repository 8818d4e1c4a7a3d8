(** Theorems about the CFAR kernel that works on pointers. *)
From Coq Require Import ZArith List Bool Arith Lia.
From Verif Require Import Base Cfar CfarProofs CfarProps CfarFlat CfarFlatProofs.
Import ListNotations.
Local Open Scope nat_scope.

(** The kernel that works on pointers finds the targets that the kernel by vectors finds in the cube whose elements lie one after the
    other, gates fastest, and runs outside its arrays when that does; whatever its scratch memory holds. *)
Theorem C102_pointers : forall (R : CRing) (hit : R -> R -> nat -> bool) mem beams dbins gates c g columns scratch,
  by_pointer hit mem beams dbins gates c g columns scratch =
  by_vector hit (fun i j k => mem (i * (dbins * gates) + j * gates + k)) beams dbins gates c g columns.
Proof.
  intros R hit mem beams dbins gates c g columns scratch. rewrite by_pointer_ok. unfold by_vector. apply loop_same. intros i F. apply loop_same. intros j F'.
  unfold vector1. rewrite (loop_same _ _ (first1_same hit gates c g columns _ _ (cell_same mem beams dbins gates i j) (i, j))). destruct (loop _ _ _ _); cbn [bind]; [|reflexivity].
  rewrite (loop_same _ _ (middle1_same hit gates c g columns _ _ (cell_same mem beams dbins gates i j) (i, j))). destruct (loop _ _ _ _); cbn [bind]; [|reflexivity].
  rewrite (loop_same _ _ (last1_same hit gates c g columns _ _ (cell_same mem beams dbins gates i j) (i, j))). reflexivity.
Qed.
(** So that it, too, locates the right targets at the gates away from the ends, in order of beams and bins.  Missing: the gates near the
    ends (see the refutations in CfarProps.v). *)
Theorem C102_pointers_detect_partial : forall (R : CRing) (hit : R -> R -> nat -> bool) mem beams dbins gates c g columns scratch,
  let cube := fun i j k => mem (i * (dbins * gates) + j * gates + k) in
  2 * (c + g) < gates -> (forall k n, k < gates -> length (targets hit cube beams dbins gates c g k n) <= columns) ->
  exists F, by_pointer hit mem beams dbins gates c g columns scratch = Some F /\
    forall k, k < gates -> k <= g \/ (g + c < k /\ k + (g + c) < gates) \/ gates <= k + g ->
      F k = targets hit cube beams dbins gates c g k (length (near gates c g k)).
Proof.
  intros R hit mem beams dbins gates c g columns scratch cube Hb Hl. rewrite C102_pointers.
  destruct (C102_detects_partial R hit cube beams dbins gates c g columns (fun _ => (0, [])) Hb Hl) as (F & G & E & _ & H).
  exists F. split; [exact E|]. intros k Hk Hz. exact (proj1 (H k Hk Hz)).
Qed.
Example C102_pointers_ex :
  option_map (fun F => map F [0; 3; 6]) (by_pointer (R := Zring) exact_hit (fun o => if o =? 17 then 50%Z else if o =? 13 then 40%Z else 1%Z) 2 2 7 2 1 4 (fun _ => 77%Z)) =
  Some [[]; [(1, 0)]; [(0, 1)]].
Proof. vm_compute. reflexivity. Qed.

Print Assumptions C102_pointers.
Print Assumptions C102_pointers_detect_partial.
