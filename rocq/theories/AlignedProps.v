(** * C60: aligned arrays are aligned, large enough, and freed exactly once *)

From Coq Require Import ZArith List Bool Lia.
Require Import Verif.Base Verif.Aligned Verif.AlignedProofs.
Import ListNotations.
Local Open Scope Z_scope.

(** For every alignment that is a power of two of at least eight bytes and
    every array whose size can be expressed: the address is a multiple of the
    alignment, and both the saved pointer and all the elements lie, without
    overlapping, in the memory obtained from [malloc]. *)
Theorem C60_aligned :
  forall k sz n ptr,
    3 <= k <= 63 -> 0 <= sz -> 0 <= n -> 0 < ptr -> ptr mod 8 = 0 ->
    ptr + n * sz + 2 ^ k < W64 ->
    let a := aligned_ptr (2 ^ k) ptr in
    a mod 2 ^ k = 0 /\
    ptr <= slot (2 ^ k) ptr /\ slot (2 ^ k) ptr + 8 <= a /\
    slot (2 ^ k) ptr mod 8 = 0 /\
    a + n * sz <= ptr + request (2 ^ k) (array_bytes sz n).
Proof.
  intros k sz n ptr Hk Hs Hn Hp Hm Hf.
  assert (0 <= n * sz) by (apply Z.mul_nonneg_nonneg; assumption).
  assert (0 < 2 ^ k) by (apply Z.pow_pos_nonneg; lia).
  assert (E : array_bytes sz n = n * sz) by (unfold array_bytes, u64; apply Z.mod_small; lia).
  rewrite E.
  exact (aligned_ptr_spec k ptr (n * sz) Hk H Hp Hm Hf).
Qed.

Example C60_ex_aligned :
  aligned_ptr 32 1000024 = 1000032 /\ slot 32 1000024 = 1000024 /\
  request 32 (array_bytes 8 100) = 832.
Proof. vm_compute. auto. Qed.

(** Finding: the number of bytes of an array is computed without regard to
    overflow: an array of 2^61 + 1 doubles succeeds with 8 bytes. *)
Theorem C60_huge_array_refuted :
  ~ (forall sz n, 0 < sz -> 0 <= n < W64 -> n * sz <= array_bytes sz n).
Proof.
  intros H. specialize (H 8 (2 ^ 61 + 1)).
  assert (8 * (2 ^ 61 + 1) <= 8); [|lia].
  rewrite Z.mul_comm. apply H; [lia|]. vm_compute. split; congruence.
Qed.

(** No sequence of constructions, copies, assignments (also to itself) and
    destructions frees memory twice. *)
Theorem C60_no_double_free :
  forall s o, array_history s -> aop_legal s o -> exists s', run_aop s o = Some s'.
Proof.
  intros s o H L. destruct (aop_step _ _ (array_history_owned _ H) L) as (s' & R & _). eauto.
Qed.

(** At any time every allocated array has exactly one owner, which knows its
    number of elements. *)
Theorem C60_owned_once :
  forall s, array_history s -> owned_once s.
Proof. exact array_history_owned. Qed.

(** When no object is left, nothing is left allocated. *)
Theorem C60_no_leak :
  forall s, array_history s -> (forall i, a_objs s i = None) -> a_heap s = [].
Proof.
  intros s H N. destruct (array_history_owned _ H) as (_ & O & _).
  destruct (a_heap s) as [|[p n] t]; [reflexivity|].
  destruct (O p n (or_introl eq_refl)) as [_ (i & E & _)]. rewrite N in E. discriminate E.
Qed.

(** A history with two arrays, an assignment between them, a self-assignment
    and a copy; the array overwritten by the assignment has been freed. *)
Definition C60_ex_ops : list aop :=
  [New 0 4 1000; New 1 9 2000; Assign 0 1; AssignRef 0 0; Copy 2 0; Destroy 0].

Fixpoint C60_ex_run (s : arrays) (l : list aop) : option arrays :=
  match l with
  | [] => Some s
  | o :: t => match run_aop s o with Some s' => C60_ex_run s' t | None => None end
  end.

Example C60_ex_state :
  option_map (fun s => (a_heap s, a_objs s 0, a_objs s 1, a_objs s 2)%nat)
    (C60_ex_run no_arrays C60_ex_ops)
  = Some ([(2000, 9)], None, Some (0, 0), Some (2000, 9)).
Proof. vm_compute. reflexivity. Qed.

Example C60_ex_history :
  forall s, C60_ex_run no_arrays C60_ex_ops = Some s -> array_history s.
Proof.
  intros s E.
  assert (L1 : aop_legal no_arrays (New 0 4 1000)) by (cbn; repeat split; try lia; intros _ []).
  pose proof (array_step _ _ _ array_start L1 eq_refl) as H1.
  match type of H1 with array_history ?s1 =>
    assert (L2 : aop_legal s1 (New 1 9 2000))
      by (cbn; repeat split; try lia; intros _ [F|[]]; discriminate F) end.
  pose proof (array_step _ _ _ H1 L2 eq_refl) as H2.
  match type of H2 with array_history ?s2 =>
    assert (L3 : aop_legal s2 (Assign 0 1)) by (split; discriminate) end.
  pose proof (array_step _ _ _ H2 L3 eq_refl) as H3.
  match type of H3 with array_history ?s3 =>
    assert (L4 : aop_legal s3 (AssignRef 0 0)) by (split; discriminate) end.
  pose proof (array_step _ _ _ H3 L4 eq_refl) as H4.
  match type of H4 with array_history ?s4 =>
    assert (L5 : aop_legal s4 (Copy 2 0)) by (split; [reflexivity|discriminate]) end.
  pose proof (array_step _ _ _ H4 L5 eq_refl) as H5.
  match type of H5 with array_history ?s5 =>
    assert (L6 : aop_legal s5 (Destroy 0)) by discriminate end.
  pose proof (array_step _ _ _ H5 L6 eq_refl) as H6.
  cbn in E. injection E as <-. exact H6.
Qed.

Print Assumptions C60_aligned.
Print Assumptions C60_huge_array_refuted.
Print Assumptions C60_no_double_free.
Print Assumptions C60_owned_once.
Print Assumptions C60_no_leak.
