(** Property C90: identifiers of the HDF5 library. *)
From Coq Require Import ZArith List Lia Bool Arith.
From Verif Require Import Base Hdf5 Hdf5Proofs.
Import ListNotations.
Open Scope Z_scope.

(** Whatever a program does with files and datasets within the limits of
    [careful], the library never complains about an identifier; every living
    file, and every living dataset with data, has an open identifier; and once
    all of them are destroyed nothing is left open. *)
Theorem C90_closed_once_partial : forall p, well_scoped p -> careful p ->
  exists s, run start (rev p) = Ok s /\ errors (library s) = 0%nat /\
  ((forall f, files_alive p f = false) -> (forall x, dsets_alive p x = false) -> open (library s) = []) /\
  (forall x, dsets_alive p x = true -> has_data p x = true -> exists d, dsets s x = Some d /\ In (impl d) (open (library s))) /\
  (forall f, files_alive p f = true -> exists i, files s f = Some i /\ In i (open (library s))).
Proof. exact all_closed. Qed.
Print Assumptions C90_closed_once_partial.

(** Limitation: complex values are outside: the compound type made for every
    write of a complex view is never closed.  A program that writes n complex
    datasets and destroys everything leaves n types open. *)
Theorem C90_complex_refuted : forall n, exists s,
  run start (OpenFile 0 true :: concat (repeat [CreateDataset 0 0; Write 0 true true; Destroy 0] n) ++ [CloseFile 0]) = Ok s /\
  length (open (library s)) = n.
Proof. exact program_leaks. Qed.
Print Assumptions C90_complex_refuted.

(** Defect: a dataset can be copied, and both copies close the identifier:
    after the first is destroyed, reading from the second is an error, and so
    is its destruction. *)
Theorem C90_copy_refuted :
  let p := [OpenFile 0 true; OpenDataset 0 0 true; CopyDataset 1 0; Destroy 0] in
  (exists s, run start p = Ok s /\ errors (library s) = 0%nat /\ exists d, dsets s 1%nat = Some d /\ ~ In (impl d) (open (library s))) /\
  (exists s, run start (p ++ [Dimensionality 1]) = Ok s /\ (1 <= errors (library s))%nat) /\
  (exists s, run start (p ++ [Destroy 1; CloseFile 0]) = Ok s /\ errors (library s) = 1%nat).
Proof.
  cbv zeta. split; [|split].
  - eexists. split; [cbn; reflexivity|]. split; [cbn; reflexivity|]. eexists. split; [cbn; reflexivity|]. cbn. intros [X|[]]. discriminate.
  - eexists. split; [cbn; reflexivity|]. cbn. lia.
  - eexists. split; cbn; reflexivity.
Qed.
Print Assumptions C90_copy_refuted.

(** Defect: assignment to a dataset loses the identifier it had: it stays open
    for ever, and the other is closed twice. *)
Theorem C90_assignment_refuted :
  exists s, run start [OpenFile 0 true; OpenDataset 0 0 true; OpenDataset 1 0 true; AssignDataset 0 1; Destroy 0; Destroy 1; CloseFile 0] = Ok s /\
    open (library s) = [2] /\ errors (library s) = 1%nat.
Proof. eexists. split; [cbn; reflexivity|]. split; cbn; reflexivity. Qed.
Print Assumptions C90_assignment_refuted.

(** Defect: asking for the value type leaves the type of the dataset open, and
    the type it is compared with if that is complex. *)
Theorem C90_value_type_refuted : forall cplx,
  exists s, run start [OpenFile 0 true; OpenDataset 0 0 true; HasType 0 cplx; Destroy 0; CloseFile 0] = Ok s /\
    length (open (library s)) = (if cplx then 2 else 1)%nat.
Proof. intros []; eexists; (split; [cbn; reflexivity|]); cbn; reflexivity. Qed.
Print Assumptions C90_value_type_refuted.

(** Defect: if the library cannot create the dataset (the name exists, the
    file is read-only), write() reports nothing, and the dataset counts as
    existing: the write and the destruction use an invalid identifier. *)
Theorem C90_failed_create_refuted :
  exists s, run start [OpenFile 0 true; CreateDataset 0 0; Write 0 false false; Destroy 0; CloseFile 0] = Ok s /\
    open (library s) = [] /\ errors (library s) = 2%nat.
Proof. eexists. split; [cbn; reflexivity|]. split; cbn; reflexivity. Qed.
Print Assumptions C90_failed_create_refuted.

(** Defect: query_extent<D>() of a dataset with more than D dimensions writes
    behind the end of its array before it compares the dimensionality, after
    any careful program. *)
Theorem C90_extent_refuted : forall p x D rank, well_scoped p -> careful p -> dsets_alive p x = true -> has_data p x = true -> (D < rank)%nat ->
  run start (rev (Extent D x rank :: p)) = Undefined.
Proof. exact history_overruns. Qed.
Print Assumptions C90_extent_refuted.

(** A program: two files; a dataset is written, its shape asked for, and read
    back through a second object; a third one is not there. *)
Definition session : list op := rev
  [OpenFile 0 true; CreateDataset 0 0; Write 0 false true; Extent 2 0 2; OpenFile 1 false; OpenFile 1 true; OpenDataset 1 1 false;
   OpenDataset 1 0 true; Read 1 1 2 false; Read 2 1 2 false; Destroy 0; CloseFile 0; Destroy 1; CloseFile 1].
Example C90_closed_once_example : well_scoped session /\ careful session /\ (forall f, files_alive session f = false) /\ (forall x, dsets_alive session x = false).
Proof.
  split; [cbn; tauto|]. split; [cbn; tauto|]. split; intros [|[|n]]; reflexivity.
Qed.
Example C90_extent_example : let p := [Write 0 false true; CreateDataset 0 0; OpenFile 0 true] in
  well_scoped p /\ careful p /\ dsets_alive p 0 = true /\ has_data p 0 = true /\ (1 < 2)%nat.
Proof. cbn. repeat split; lia. Qed.
