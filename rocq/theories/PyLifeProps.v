(** Property C91: lifetimes of blocks and arrays in Python. *)
From Coq Require Import List Lia Bool Arith.
From Verif Require Import Base PyLife PyLifeProofs.
Import ListNotations.

(** As long as no block is destroyed before the arrays made of it, no element
    is read or written in memory that was given back, whatever parts are made
    of whatever blocks and in whatever order references are dropped; and the
    storage made for a block is given back once, when the last block that
    shares it is gone. *)
Theorem C91_storage_lives_partial : forall p, well_formed p -> arrays_first p ->
  exists st, run start (rev p) = Some st /\ NoDup (freed st) /\
  (forall s, In s (freed st) <-> In (NewBlock s) p /\ forall b, is_block p b = true -> origin p b = s -> references p b = 0).
Proof. exact lifetimes. Qed.
Print Assumptions C91_storage_lives_partial.

(** Defect: an array does not keep the block it was made of: after any such
    program, when the last reference to the last block on a storage is dropped
    and an array made of it is left, the array's elements are in memory that
    was given back. *)
Theorem C91_array_refuted : forall p b a, well_formed p -> arrays_first p -> references p b = 1 -> is_block p b = true ->
  (forall c, is_block p c = true -> origin p c = origin p b -> c <> b -> references p c = 0) ->
  array_of p a b = true -> is_block p a = false -> 0 < references p a ->
  run start (rev (Access a :: Decref b :: p)) = None.
Proof. exact dangling. Qed.
Print Assumptions C91_array_refuted.

(** Defect: even if the memory is still there, because a part of the block is,
    the end of an array writes into the block it was made of, which is gone. *)
Theorem C91_array_end_refuted : forall p b a, well_formed p -> arrays_first p -> references p b = 1 -> is_block p b = true ->
  array_of p a b = true -> is_block p a = false -> references p a = 1 ->
  run start (rev (Decref a :: Decref b :: p)) = None.
Proof. exact backref_dangling. Qed.
Print Assumptions C91_array_end_refuted.

(** A block, a part of it and a part of that, an array of the part; the whole
    goes first, then the array, then the parts. *)
Definition session : list op := rev
  [NewBlock 0; SubBlock 1 0; SubBlock 2 1; MakeArray 3 1; Incref 3; Decref 0; Access 3; Access 1; Decref 3; Decref 3; Decref 1; Access 2; Decref 2].
Example C91_storage_lives_example : well_formed session /\ arrays_first session /\ In (NewBlock 0) session /\
  (forall b, is_block session b = true -> references session b = 0).
Proof.
  split; [cbn; repeat split; lia|]. split.
  - cbn. repeat split; intros R a; destruct a as [|[|[|[|a]]]]; cbn; try discriminate; try lia; destruct a; discriminate.
  - split; [cbn; tauto|]. intros b. destruct b as [|[|[|b]]]; cbn; try discriminate; auto.
Qed.
(** The array of a temporary. *)
Example C91_array_example : let p := [MakeArray 1 0; NewBlock 0] in
  well_formed p /\ arrays_first p /\ references p 0 = 1 /\ is_block p 0 = true /\
  (forall c, is_block p c = true -> origin p c = origin p 0 -> c <> 0 -> references p c = 0) /\
  array_of p 1 0 = true /\ is_block p 1 = false /\ 0 < references p 1.
Proof. cbn. repeat split; try lia. intros [|[|c]]; cbn; congruence. Qed.
