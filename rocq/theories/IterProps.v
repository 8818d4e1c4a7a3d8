(** Theorems about iterators and the processors of a subblock. *)
From Coq Require Import ZArith List Lia Bool Arith.
From Verif Require Import Base Iter IterProofs.
Import ListNotations.
Open Scope Z_scope.

(** ** Going through the processors of a subblock *)

(** With one processor per subblock the loop from begin to end ends after
    that processor, whatever its number, and processor_has_block answers
    whether it is the one. *)
Theorem C87_one_processor : forall p fuel, proc p -> (1 <= fuel)%nat ->
  visit viter vi_ne vi_next vi_get fuel (one_begin p) (one_end p) = Some [p] /\
  forall q, has_processor viter vi_ne vi_next vi_get fuel (one_begin p) (one_end p) q = Some (p =? q).
Proof. exact one_visit. Qed.
Print Assumptions C87_one_processor.

Example C87_one_processor_example : proc 4294967295 /\
  visit viter vi_ne vi_next vi_get 3 (one_begin 4294967295) (one_end 4294967295) = Some [4294967295].
Proof. split; [unfold proc; lia|]. vm_compute. reflexivity. Qed.

(** With a set of processors the loop visits all of them, in order, and ends,
    although begin and end hold different copies of the set. *)
Theorem C87_all_processors : forall b b' ps fuel,
  Z.of_nat (length ps) < 18446744073709551616 -> (length ps <= fuel)%nat ->
  visit witer wi_ne wi_next wi_get fuel (set_begin b ps) (set_end b' ps) = Some ps /\
  forall q, exists r,
    has_processor witer wi_ne wi_next wi_get fuel (set_begin b ps) (set_end b' ps) q = Some r /\ (r = true <-> In q ps).
Proof.
  intros b b' ps fuel L F. split; [apply set_visit; assumption|]. intros q. apply set_has; assumption.
Qed.
Print Assumptions C87_all_processors.

Example C87_all_processors_example :
  visit witer wi_ne wi_next wi_get 3 (set_begin 1 [4; 0; 7]) (set_end 2 [4; 0; 7]) = Some [4; 0; 7] /\
  has_processor witer wi_ne wi_next wi_get 3 (set_begin 1 [4; 0; 7]) (set_end 2 [4; 0; 7]) 7 = Some true /\
  has_processor witer wi_ne wi_next wi_get 3 (set_begin 1 [4; 0; 7]) (set_end 2 [4; 0; 7]) 5 = Some false.
Proof. repeat split; vm_compute; reflexivity. Qed.

(** ** Moving an iterator *)

(** Steps forward and back cancel, steps add up, and the iterator moved by
    [n] is on the value [n] steps further. *)
Theorem C87_steps_over_values : forall i, proc (i_cur i) ->
  vi_prev (vi_next i) = i /\ vi_next (vi_prev i) = i /\ vi_advance i 1 = vi_next i /\ vi_retreat i 1 = vi_prev i /\
  (forall a b, vi_advance (vi_advance i a) b = vi_advance i (a + b)) /\
  (forall a, vi_retreat (vi_advance i a) a = i) /\
  (forall n, proc (i_cur i + n * i_delta i) -> vi_get (vi_advance i n) = Some (i_cur i + n * i_delta i)).
Proof. exact vi_moves. Qed.
Print Assumptions C87_steps_over_values.

Theorem C87_steps_over_vectors : forall i, on i ->
  wi_prev (wi_next i) = i /\ wi_next (wi_prev i) = i /\ wi_advance i 1 = wi_next i /\ wi_retreat i 1 = wi_prev i /\
  (forall a b, wi_advance (wi_advance i a) b = wi_advance i (a + b)) /\
  (forall a, wi_retreat (wi_advance i a) a = i) /\
  (forall n, int n -> wi_diff (wi_advance i n) i = n).
Proof. exact wi_moves. Qed.
Print Assumptions C87_steps_over_vectors.

(** The iterator [n] steps after the beginning is on element [n]; at the end
    there is none. *)
Theorem C87_element : forall b l,
  Z.of_nat (length l) < 18446744073709551616 ->
  (forall n, 0 <= n < Z.of_nat (length l) -> wi_get (wi_advance (set_begin b l) n) = nth_error l (Z.to_nat n)) /\
  wi_get (set_end b l) = None.
Proof.
  intros b l L. split; [intros n H; apply wi_get_at; assumption|].
  apply (wi_past b l); reflexivity.
Qed.
Print Assumptions C87_element.

(** The distance of two iterators is the number of steps between them: for
    steps of one always, for longer steps if the first is not before the
    second. *)
Theorem C87_distance_partial :
  (forall c n, proc c -> int n -> vi_diff (vi_advance (VI c 1) n) (VI c 1) = Some n) /\
  (forall c d n, 0 < d -> int n -> 0 <= n -> n * d < 4294967296 -> vi_diff (vi_advance (VI c d) n) (VI c d) = Some n).
Proof. split; [exact vi_diff_one|exact vi_diff_step]. Qed.
Print Assumptions C87_distance_partial.

(** An iterator is before those reached by steps forward, and equal only to
    the one reached by no step. *)
Theorem C87_order :
  (forall i n, proc (i_cur i) -> 0 < i_delta i -> proc (i_cur i + n * i_delta i) ->
     vi_lt i (vi_advance i n) = (0 <? n) /\ vi_eq i (vi_advance i n) = (n =? 0) /\
     vi_ne i (vi_advance i n) = negb (n =? 0)) /\
  (forall i n, on i -> 0 <= w_idx i + n < 18446744073709551616 ->
     wi_lt i (wi_advance i n) = (0 <? n) /\ wi_eq i (wi_advance i n) = (n =? 0) /\
     wi_ne i (wi_advance i n) = negb (n =? 0)).
Proof. split; [exact vi_order|exact wi_order]. Qed.
Print Assumptions C87_order.

Example C87_moves :
  vi_get (vi_advance (VI 3 2) 5) = Some 13 /\ vi_diff (VI 13 2) (VI 3 2) = Some 5 /\ vi_diff (VI 3 1) (VI 7 1) = Some (-4) /\
  wi_get (wi_advance (set_begin 0 [5; 6; 7]) 2) = Some 7 /\ wi_diff (set_begin 0 [5; 6; 7]) (set_end 0 [5; 6; 7]) = -3.
Proof. repeat split; vm_compute; reflexivity. Qed.

(** Defect: the difference is an unsigned quotient (value_iterator.hpp 59-60):
    for a step of 2 the distance from a later iterator back to an earlier one
    is a large positive number. *)
Theorem C87_distance_refuted :
  vi_advance (VI 3 2) (-1) = VI 1 2 /\ vi_diff (VI 1 2) (VI 3 2) = Some 2147483647.
Proof. split; vm_compute; reflexivity. Qed.
Print Assumptions C87_distance_refuted.

(** Limitation: distances are of type int (vector_iterator.hpp 45): for a
    vector of 2^31 elements the distance from begin to end is negative. *)
Theorem C87_long_vector_refuted : forall b l, wi_diff (WI b l 2147483648) (WI b l 0) = -2147483648.
Proof. intros b l. vm_compute. reflexivity. Qed.
Print Assumptions C87_long_vector_refuted.

(** Defect: iterators over different vectors at the same position compare
    equal, because each operand's block is compared with itself
    (vector_iterator.hpp 36-40).  (The loops above rely on it.) *)
Theorem C87_equality_refuted : forall b l b' l' x,
  wi_eq (WI b l x) (WI b' l' x) = true /\ wi_ne (WI b l x) (WI b' l' x) = false.
Proof.
  intros b l b' l' x. unfold wi_eq, wi_ne. cbn [w_block w_idx]. rewrite Nat.eqb_refl, Z.eqb_refl. split; reflexivity.
Qed.
Print Assumptions C87_equality_refuted.
