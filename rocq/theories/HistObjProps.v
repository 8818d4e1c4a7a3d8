(** C98: the life of histograms and of their results. *)
From Coq Require Import ZArith QArith List Lia Bool Arith.
From Verif Require Import Base Histo FiltObj FiltObjProofs HistObj HistObjProofs.
Import ListNotations.
Local Open Scope nat_scope.

(** C98.  In a program that does not copy-construct histograms, nothing goes
    wrong (no read of freed memory, no size error beyond those in the
    specification), and a vector returned by a call contains, whenever it is
    read before the next call of its histogram or assignment to it, or after
    the end of its histogram with none in between, the counts of the samples
    since the last call without accumulation.  When all variables have ended,
    all storage has been freed.  Missing: results read after the next call,
    and copies of histograms; see below. *)
Theorem C98_results_partial ops s q : exec ideal [] ops = Some (s, q) ->
  exists st r, exec hstep hstart ops = Some (st, r) /\ Forall2 answers q r /\
    (Forall (eq None) s -> Forall (eq None) (hvars st) /\ Forall (eq None) (cells st)).
Proof.
  intros H. destruct (run_ok ops hstart [] s q start_inv H) as (st & r & E & V & A). exists st, r.
  split; [exact E|]. split; [exact A|]. exact (empty_ok st s V).
Qed.
Print Assumptions C98_results_partial.

(** Two histograms, calls with and without accumulation, an assignment, a
    copied result that survives its histogram. *)
Definition ex_prog : list hop :=
  [HNew 0 1 3; HNew 5 7 3; HCall 0 false (vec (A := reals) [1#2; 3#1]%Q); Read 2;
   HCall 0 true (mat (A := reals) [[1#3]; [-1#1]]%Q 1); Read 3; RCopy 3; HAssign 1 0; Read 4;
   HCall 1 true (vec (A := reals) [1#4]%Q); Read 5; HEnd 0; Read 4; HEnd 1; Read 5; HEnd 2; HEnd 3; Read 4; HEnd 4; HEnd 5].
Example C98_example : exists s q, exec ideal [] ex_prog = Some (s, q) /\ Forall (eq None) s /\
  q = [Some [0; 1; 1]; Some [1; 2; 1]; Some [1; 2; 1]; Some [1; 3; 1]; Some [1; 2; 1]; Some [1; 3; 1]; Some [1; 2; 1]]%Z.
Proof. eexists _, _. split; [vm_compute; reflexivity|]. split; [repeat constructor|reflexivity]. Qed.

(** Defect: a vector returned by a histogram changes when the histogram is
    called again: the result is a view of the histogram's own counters
    (histo.hpp 148, 163), so that a program that keeps the results of two
    calls finds the second twice. *)
Theorem C98_result_changes_refuted :
  exists ops x y c d, ops = [HNew 0 1 3; HCall 0 false (vec x); Read 1; HCall 0 false (vec y); Read 1; Read 2] /\
  c = counts 0 1 3 x /\ d = counts 0 1 3 y /\ c <> d /\
  exists st, exec hstep hstart ops = Some (st, [c; d; d]).
Proof.
  exists [HNew 0 1 3; HCall 0 false (vec (A := reals) [1#2]%Q); Read 1; HCall 0 false (vec (A := reals) [2#1; 2#1]%Q); Read 1; Read 2],
    [1#2]%Q, [2#1; 2#1]%Q, [0; 1; 0]%Z, [0; 0; 2]%Z.
  split; [reflexivity|]. split; [reflexivity|]. split; [reflexivity|]. split; [discriminate|]. eexists. vm_compute. reflexivity.
Qed.
Print Assumptions C98_result_changes_refuted.

(** Defect: a copy of a histogram goes on counting in the counters of the
    original: the implicit copy constructor copies the member hist_ as a
    view.  A call of the copy is seen in the next accumulating call of the
    original, and clears its counts if it does not accumulate.  Assignment,
    in contrast, copies the counts. *)
Theorem C98_copy_shares_refuted :
  exists x y z c, c = counts 0 1 3 (y ++ z) /\ c <> counts 0 1 3 (x ++ z) /\
  exists st, exec hstep hstart [HNew 0 1 3; HCall 0 false (vec (A := reals) x); HCopy 0; HCall 2 false (vec (A := reals) y); HCall 0 true (vec (A := reals) z); Read 4] = Some (st, [c]).
Proof.
  exists [1#2]%Q, [2#1; 2#1]%Q, [1#3]%Q, [0; 1; 2]%Z.
  split; [reflexivity|]. split; [vm_compute; discriminate|]. eexists. vm_compute. reflexivity.
Qed.
Print Assumptions C98_copy_shares_refuted.

(** Limitation: a histogram cannot be assigned to one with another number of
    bins: the assignment of the counters requires equal sizes. *)
Theorem C98_assign_sizes_refuted : forall mn mx mn' mx' n m st r,
  exec hstep hstart [HNew mn mx n; HNew mn' mx' m] = Some (st, r) -> n <> m ->
  hstep st (HAssign 0 1) = None.
Proof.
  intros mn mx mn' mx' n m st r. cbn [exec hstep hstart hvars cells app length]. unfold make_histogram.
  destruct (ltb reals mn mx); [|discriminate]. destruct (3 <=? n); [|discriminate]. cbn [bind fst snd].
  destruct (ltb reals mn' mx'); [|discriminate]. destruct (3 <=? m); [|discriminate]. cbn [bind fst snd hist_ app].
  intros [= <- <-] N. cbn [hstep at_ nth_error bind hvars cells snd]. cbn. rewrite !repeat_length. apply Nat.eqb_neq in N. rewrite N. reflexivity.
Qed.
Print Assumptions C98_assign_sizes_refuted.
