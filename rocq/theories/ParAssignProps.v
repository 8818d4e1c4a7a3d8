(** C15, C16: assignment between distributed blocks. *)
From Coq Require Import List Arith ZArith Lia Bool.
From Verif Require Import Base Dist Domain Traversal Map ParAssign ParAssignProofs.
Import ListNotations.
Local Open Scope nat_scope.

(** C15.  Whatever the order in which the processors run and the messages
    are delivered: no processor fails, the assignment stops after a bounded
    number of steps, a state in which nobody can move has no processor
    left waiting and no message left over, and then every processor's
    subblock of the destination holds the source's elements.  At no time
    is anything outside the destination's elements written. *)
Theorem C15_assignment_delivers : forall V O lhs rhs rst lst (rmem lmem0 : nat -> Z -> V) X,
  order_valid (length (a_dims lhs)) O = true ->
  amap_ok lhs -> amap_ok rhs -> a_ext lhs = a_ext rhs ->
  (forall r, length (rst r) = length (a_dims lhs)) ->
  (forall r, length (lst r) = length (a_dims lhs)) ->
  (forall r sb ext, a_subblock lhs r = Some sb -> a_lext lhs sb = Some ext -> own_cell ext (lst r)) ->
  (forall r, holds rhs rst rmem X r) ->
  exists P N, (forall r, program O lhs rhs (rst r) (lst r) r = Some (P r)) /\
  forall n s, steps rmem n {| prog := P; lmem := lmem0; chan := fun _ _ => [] |} s ->
    n <= N /\
    (forall r o, (forall g, ~ element_at lhs lst r o g) -> lmem s r o = lmem0 r o) /\
    ((exists t, step rmem s t) \/
     ((forall r, prog s r = []) /\ (forall p q, chan s p q = []) /\
      forall r, holds lhs lst (lmem s) X r)).
Proof.
  intros V O lhs rhs rst lst rmem lmem0 X HO Hl Hr HE Lr Ll OC HR.
  exact (assign_lemma O lhs rhs rst lst HO Hl Hr HE Lr Ll rmem lmem0 X OC HR).
Qed.
Print Assumptions C15_assignment_delivers.

(** C16.  What p decides to send to q and what q decides to receive from p
    agree: there is a message on one side exactly when there is one on the
    other, at most one per pair, and the k-th value sent and the k-th
    place received into belong to the same global element, each element
    at most once. *)
Theorem C16_messages_match : forall O lhs rhs rst lst,
  order_valid (length (a_dims lhs)) O = true ->
  amap_ok lhs -> amap_ok rhs -> a_ext lhs = a_ext rhs ->
  (forall r, length (rst r) = length (a_dims lhs)) ->
  (forall r, length (lst r) = length (a_dims lhs)) ->
  forall p q, exists S R,
  build_send_list O lhs rhs (rst p) p = Some S /\ build_recv_list O lhs rhs (lst q) q = Some R /\
  NoDup (map fst S) /\ NoDup (map fst R) /\
  ((exists o, In (q, o) S) <-> (exists o, In (p, o) R)) /\
  (forall o o', In (q, o) S -> In (p, o') R -> exists gs, NoDup gs /\
     Forall2 (element_at rhs rst p) o gs /\ Forall2 (element_at lhs lst q) o' gs).
Proof. exact messages_lemma. Qed.
Print Assumptions C16_messages_match.

(** A 2-D case: five rows over two processors in blocks, to cyclic rows
    and block columns over four. *)
Definition ex_rhs := {| a_dims := [(Block 2, 5); (Whole, 4)]; a_pvec := [3; 1]; a_rep := false |}.
Definition ex_lhs := {| a_dims := [(Cyclic 2 2, 5); (Block 2, 4)]; a_pvec := [0; 1; 2; 3]; a_rep := false |}.
Example ex_par_hyps : amap_ok ex_lhs /\ amap_ok ex_rhs /\ a_ext ex_lhs = a_ext ex_rhs /\
  order_valid 2 [0; 1] = true /\
  (forall r sb ext, a_subblock ex_lhs r = Some sb -> a_lext ex_lhs sb = Some ext -> own_cell ext [10; 1]%Z).
Proof.
  assert (B : forall a b, a < b -> ~ b <= a) by lia.
  split; [|split; [|split; [reflexivity|split; [reflexivity|]]]].
  - constructor; cbn; try discriminate; try reflexivity; repeat constructor; cbn; intuition discriminate.
  - constructor; cbn; try discriminate; try reflexivity; repeat constructor; cbn; intuition discriminate.
  - intros r sb ext _ E i j Hi Hj. 
    assert (L : exists a b, ext = [a; b] /\ b <= 2).
    { unfold ex_lhs in E. cbn [a_lext a_rep a_dims] in E. unfold map_subblock_extent in E.
      destruct (Nat.ltb_spec sb (map_num_subblocks [(Cyclic 2 2, 5); (Block 2, 4)])) as [H|H]; [|discriminate].
      change (map_num_subblocks _) with 4 in H.
      destruct sb as [|[|[|[|]]]]; try (exfalso; lia); vm_compute in E; injection E as <-; eauto. }
    destruct L as (a & b & -> & Lb).
    inversion Hi as [|i0 ? i' ? I1 I2]; subst. inversion I2 as [|i1 ? i'' ? I3 I4]; subst. inversion I4; subst.
    inversion Hj as [|j0 ? j' ? J1 J2]; subst. inversion J2 as [|j1 ? j'' ? J3 J4]; subst. inversion J4; subst.
    cbn. intros H. assert (i0 = j0 /\ i1 = j1) by lia. intuition congruence.
Qed.
Example ex_par_messages :
  build_send_list [0; 1] ex_lhs ex_rhs [4; 1]%Z 3 =
    Some [(0, [0; 1; 4; 5]%Z); (1, [2; 3; 6; 7]%Z); (2, [8; 9]%Z)] /\
  build_recv_list [0; 1] ex_lhs ex_rhs [10; 1]%Z 2 = Some [(3, [0; 1]%Z); (1, [10; 11]%Z)].
Proof. split; reflexivity. Qed.

(** Complex blocks in interleaved storage.  chain_add there describes the
    transfer in units of the component type T (element_type,
    assign_chain.hpp 46-47) but with offsets, strides and lengths counted
    in complex elements (data.stride, accessor.hpp 300): components of
    the elements are left out of the message. *)
Theorem C15_interleaved_refuted : exists d st c i o, 
  chain_add [0] [d] st = Some c /\ (0 <= i < dlen d)%Z /\
  In o (interleaved_cells (idx d i * zdim st 0)%Z) /\ ~ In o (concat c).
Proof.
  exists (mkdom 0 1 2), [1%Z], [[0; 1]%Z], 1%Z, 3%Z. cbn. repeat split; try lia.
Qed.
Print Assumptions C15_interleaved_refuted.
