(** C27: reference counting. *)
From Coq Require Import ZArith List Lia Bool Arith.
From Verif Require Import Base Refcount RefcountProofs.
Import ListNotations.
Local Open Scope nat_scope.

(** No interleaving of legal operations of any number of threads touches a
    destroyed object, destroys one twice or dereferences null. *)
Theorem C27_no_use_after_free n w l : exists s, run (init n w) l = Some s.
Proof. exact (no_ub n w l). Qed.

(** At every point of every execution: what a variable, or a member of an
    existing object, points to exists. *)
Theorem C27_exists_while_referenced n w l s a : run (init n w) l = Some s -> held s a \/ member s a -> exists_ s a.
Proof. intros R. exact (held_exists s a (reach_good n w l s R)). Qed.

(** Whenever no operation is in progress, exactly the objects reachable from
    the program's variables exist: nothing leaks. *)
Theorem C27_exists_exactly_while_reachable n w l s a : run (init n w) l = Some s -> idle s -> exists_ s a <-> reachable s a.
Proof. intros R Id. pose proof (reach_good n w l s R) as G. split; [exact (exists_reachable s a G Id)|exact (reachable_exists s a G)]. Qed.

(** Every object is destroyed at most once, and the destroyed ones are those
    that no longer exist. *)
Theorem C27_destroyed_once n w l s : run (init n w) l = Some s ->
  NoDup (freed s) /\ forall a, In a (freed s) <-> a < length (heap s) /\ ~ exists_ s a.
Proof.
  intros R. pose proof (reach_good n w l s R) as G. split; [exact (g_nodup _ G)|]. intros a. rewrite (g_freed _ G a). split.
  - intros (o & E & L). split; [apply nth_error_Some; congruence|]. intros (o' & E' & L'). congruence.
  - intros [H N]. destruct (nth_error (heap s) a) as [o|] eqn:E; [|apply nth_error_None in E; lia]. exists o. split; [reflexivity|].
    destruct (live o) eqn:L; [|reflexivity]. exfalso. apply N. exists o. auto.
Qed.

(** Two threads; thread 1 gets a copy and drops it while thread 0 drops its
    own, the two decrements interleaved; object 1 has object 0 as member. *)
Example C27_example : exists s,
  run (init 2 3) [(0, New 0); (0, New 0); (0, New 1); (0, New 1); (0, Members 1 [0]); (0, Members 1 [0]); (0, Members 1 [0]);
                  (0, Copy 2 (SSlot 1)); (0, Destroy 0); (0, Send 2 1 0); (0, Destroy 0); (0, Destroy 0); (0, Send 2 1 0);
                  (1, Destroy 0); (0, Destroy 1); (0, Destroy 1); (1, Destroy 0); (1, Destroy 0); (1, Destroy 0); (1, Destroy 0)] = Some s /\
  idle s /\ freed s = [0; 1] /\ length (heap s) = 2.
Proof.
  eexists. split; [vm_compute; reflexivity|]. split; [|split; reflexivity].
  intros [|[|[|t]]] x H; vm_compute in H; try discriminate; injection H as <-; auto.
Qed.

(** What [legal] excludes does go wrong.  Assigning a null refcounted_ptr
    to a non-null one dereferences null. *)
Theorem C27_assign_null_refuted : exists s x s1 x1,
  run (init 1 2) [(0, New 0); (0, New 0); (0, New 1); (0, New 1); (0, ResetNull 1); (0, ResetNull 1); (0, ResetNull 1); (0, ResetNull 1)] = Some s /\
  nth_error (threads s) 0 = Some x /\ pend x = [] /\ fin x = None /\ slot_at x 0 = Some (Some 0) /\ slot_at x 1 = Some None /\
  start s 0 x (Assign 0 (SSlot 1)) = Some s1 /\ nth_error (threads s1) 0 = Some x1 /\
  run s1 [(0, New 0); (0, New 0); (0, New 0)] = None.
Proof. eexists _, _, _, _. repeat split; vm_compute; reflexivity. Qed.
(** Resetting the only reference to its own pointer uses a destroyed object. *)
Theorem C27_reset_self_refuted : exists s x s1,
  run (init 1 1) [(0, New 0); (0, New 0)] = Some s /\ nth_error (threads s) 0 = Some x /\ pend x = [] /\ fin x = None /\
  start s 0 x (Reset 0 0) = Some s1 /\ run s1 [(0, New 0); (0, New 0); (0, New 0)] = None.
Proof. eexists _, _, _. repeat split; vm_compute; reflexivity. Qed.
(** Assigning from a member of the object the target points to ([p =
    p->next]) reads the member after its object is destroyed. *)
Theorem C27_assign_own_member_refuted : exists s x s1,
  run (init 1 2) [(0, New 0); (0, New 0); (0, New 1); (0, New 1); (0, Members 1 [0]); (0, Members 1 [0]); (0, Members 1 [0])] = Some s /\
  nth_error (threads s) 0 = Some x /\ pend x = [] /\ fin x = None /\
  start s 0 x (Assign 1 (SKid 1 0)) = Some s1 /\ run s1 [(0, New 0); (0, New 0); (0, New 0); (0, New 0)] = None.
Proof. eexists _, _, _. repeat split; vm_compute; reflexivity. Qed.

Print Assumptions C27_no_use_after_free.
Print Assumptions C27_exists_while_referenced.
Print Assumptions C27_exists_exactly_while_reachable.
Print Assumptions C27_destroyed_once.
Print Assumptions C27_assign_null_refuted.
Print Assumptions C27_reset_self_refuted.
Print Assumptions C27_assign_own_member_refuted.
