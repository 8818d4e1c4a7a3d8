(** Property theorem C05. *)
From Coq Require Import List Arith Lia Bool Sorted.
From Verif Require Import Base Traversal TraversalProofs.
Import ListNotations.

(** Starting from the default (zero) index, the loop terminates, visits
    exactly the indices inside the extent, each once, in lexicographic
    order of the dimension order [o]. *)
Theorem C05_traversal_exactly_once_in_order :
  forall o ext, order_valid (length ext) o = true ->
  exists l n,
    (forall fuel, n <= fuel -> traverse fuel o ext (repeat 0 (length ext)) = Some l) /\
    (forall i, In i l <-> in_range ext i) /\
    NoDup l /\
    StronglySorted (lexlt o) l.
Proof. exact traverse_lemma. Qed.
Print Assumptions C05_traversal_exactly_once_in_order.

Example C05_example :
  traverse 10 [1;0] [2;3] [0;0] = Some [[0;0];[1;0];[0;1];[1;1];[0;2];[1;2]] /\
  traverse 10 [2;0;1] [1;2;2] [0;0;0] = Some [[0;0;0];[0;1;0];[0;0;1];[0;1;1]] /\
  traverse 10 [0;1;2] [2;0;2] [0;0;0] = Some [].
Proof. repeat split. Qed.
