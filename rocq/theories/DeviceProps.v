(** C78: a block behaves as if there were one copy of its data, although
    an OpenCL configuration keeps one in host memory and one on the
    device. *)
From Coq Require Import List Bool Arith Lia.
From Verif Require Import Base Device DeviceProofs.
Import ListNotations.

(** A program that does not use the device gets from a block without
    user storage exactly what the specification with one copy of the data
    says, wherever that is determined, and never fails. *)
Theorem C78_host_only_plain :
  forall (V : Type) (compat : nat -> bool) (u : nat -> nat -> option V) (n : nat) (alloc : bool)
         (l : list (op V)) (outs : list (option V)),
    Forall host_only l -> Forall op_sensible l ->
    spec_run compat (new_plain u n) l = Some outs ->
    exists outs', run compat (make_plain u n alloc) l = Some outs' /\
      Forall2 agrees outs outs'.
Proof.
  intros V compat u n alloc l outs H S E.
  exact (plain_ok compat u n alloc l outs (host_only_careful l plain_care eq_refl H) S E).
Qed.
Print Assumptions C78_host_only_plain.

(** The same for a block with user storage: any sequence of admit,
    release, rebind, accesses of the block and of the user's arrays. *)
Theorem C78_host_only_user :
  forall (V : Type) (compat : nat -> bool) (u : nat -> nat -> option V) (n id : nat)
         (l : list (op V)) (outs : list (option V)),
    Forall host_only l -> Forall op_sensible l ->
    spec_run compat (new_user compat u n id) l = Some outs ->
    exists outs', run compat (make_user compat u n id) l = Some outs' /\
      Forall2 agrees outs outs'.
Proof.
  intros V compat u n id l outs H S E.
  exact (user_ok compat u n id l outs (host_only_careful l user_care eq_refl H) S E).
Qed.
Print Assumptions C78_host_only_user.

(** Programs that use the device and the host in any order.  What is
    missing from the full property is the condition [careful]: writes
    through element references, admit and rebind are followed by a [put]
    or a pointer access before a kernel runs; release is preceded by a
    host access; a buffer or pointer kept from before is not used after
    an access from the other side. *)
Theorem C78_device_plain_partial :
  forall (V : Type) (compat : nat -> bool) (u : nat -> nat -> option V) (n : nat) (alloc : bool)
         (l : list (op V)) (outs : list (option V)),
    careful plain_care l -> Forall op_sensible l ->
    spec_run compat (new_plain u n) l = Some outs ->
    exists outs', run compat (make_plain u n alloc) l = Some outs' /\
      Forall2 agrees outs outs'.
Proof.
  intros V compat u n alloc l outs C S E.
  exact (plain_ok compat u n alloc l outs C S E).
Qed.
Print Assumptions C78_device_plain_partial.

Theorem C78_device_user_partial :
  forall (V : Type) (compat : nat -> bool) (u : nat -> nat -> option V) (n id : nat)
         (l : list (op V)) (outs : list (option V)),
    careful user_care l -> Forall op_sensible l ->
    spec_run compat (new_user compat u n id) l = Some outs ->
    exists outs', run compat (make_user compat u n id) l = Some outs' /\
      Forall2 agrees outs outs'.
Proof.
  intros V compat u n id l outs C S E.
  exact (user_ok compat u n id l outs C S E).
Qed.
Print Assumptions C78_device_user_partial.

(** ** Cases. *)
(** A kernel that copies element 0 to element 1. *)
Definition copy01 (f : nat -> option nat) : nat -> option nat :=
  fun i => if i =? 1 then f 0 else f i.
(** A kernel that adds one to every element. *)
Definition incr (f : nat -> option nat) : nat -> option nat :=
  fun i => match f i with Some v => Some (v + 1) | None => None end.
Lemma copy01_sensible : sensible copy01.
Proof.
  intros n f f' H i Hi. unfold copy01. destruct (i =? 1) eqn:E.
  - apply H. apply Nat.eqb_eq in E. lia.
  - apply H, Hi.
Qed.
Lemma incr_sensible : sensible incr.
Proof.
  intros n f f' H i Hi v. unfold incr. specialize (H i Hi).
  destruct (f i) as [x|]; [|discriminate]. rewrite (H x eq_refl). auto.
Qed.
Definition arrays (k i : nat) : option nat := Some (10 * k + i).

Example C78_plain_ex :
  let l := [Put 0 5; Put 1 6; Kernel copy01; Kernel2 incr; Get 0; Get 1; Host incr; Kernel incr; Look 1] in
  careful plain_care l /\ Forall op_sensible l /\
  spec_run (fun _ => true) (new_plain arrays 2) l = Some [Some 6; Some 6; Some 8] /\
  run (fun _ => true) (make_plain arrays 2 false) l = Some [Some 6; Some 6; Some 8].
Proof.
  cbv zeta. split; [|split; [|split]].
  - cbn. repeat split; discriminate.
  - repeat constructor; first [apply copy01_sensible|apply incr_sensible].
  - reflexivity.
  - reflexivity.
Qed.
Example C78_user_ex : forall b : bool,
  let l := [Admit true; Put 0 5; Kernel copy01; Get 1; Release true; User_get 3 1;
            Rebind 4 2; User_put 4 0 9; Admit true; Host incr; Kernel copy01; Get 1; Release true; User_get 4 1] in
  careful user_care l /\ Forall op_sensible l /\
  spec_run (fun _ => b) (new_user (fun _ => b) arrays 2 3) l
    = Some [Some 5; Some 5; Some 10; Some 10] /\
  run (fun _ => b) (make_user (fun _ => b) arrays 2 3) l
    = Some [Some 5; Some 5; Some 10; Some 10].
Proof.
  intros b. cbv zeta. split; [|split; [|split]].
  - cbn. repeat split; discriminate.
  - repeat constructor; first [apply copy01_sensible|apply incr_sensible].
  - destruct b; reflexivity.
  - destruct b; reflexivity.
Qed.
Example C78_host_only_ex : forall b : bool,
  let l := [Admit true; Set_ 0 5; Get 1; Release true; User_get 3 0; Admit false] in
  Forall host_only l /\
  spec_run (fun _ => b) (new_user (fun _ => b) arrays 2 3) l = Some [Some 31; Some 5] /\
  run (fun _ => b) (make_user (fun _ => b) arrays 2 3) l = Some [Some 31; Some 5].
Proof.
  intros b. cbv zeta. split; [|split].
  - repeat constructor.
  - destruct b; reflexivity.
  - destruct b; reflexivity.
Qed.

(** ** Where the copies drift apart. *)

(** Defect: [view(i) = v] writes through an element reference, which does
    not mark the device copy as out of date (storage/manager.hpp [at]
    lacks what [put] does): the next kernel does not see the value. *)
Theorem C78_reference_refuted :
  ~ (forall (compat : nat -> bool) (u : nat -> nat -> option nat) (n : nat) l outs,
       Forall op_sensible l ->
       (forall o, In o l -> match o with Put _ _ | Set_ _ _ | Kernel _ | Get _ => True | _ => False end) ->
       spec_run compat (new_plain u n) l = Some outs ->
       exists outs', run compat (make_plain u n true) l = Some outs' /\ Forall2 agrees outs outs').
Proof.
  intro X.
  destruct (X (fun _ => true) arrays 2 [Set_ 0 5; Kernel copy01; Get 1] [Some 5]) as (o & R & F).
  - repeat constructor. apply copy01_sensible.
  - cbn. intros o [<- |[<- |[<- |[]]]]; exact I.
  - reflexivity.
  - vm_compute in R. injection R as <-. inversion F as [|? ? ? ? A]; subst.
    discriminate (A 5 eq_refl).
Qed.
Print Assumptions C78_reference_refuted.

(** Defect: the data a user hands over by admit do not reach the device:
    a kernel run next works on indeterminate values, because admit leaves
    the device copy marked as valid. *)
Theorem C78_admit_refuted :
  ~ (forall (compat : nat -> bool) (u : nat -> nat -> option nat) (n id : nat) g outs,
       sensible g ->
       let l := [Admit true; Kernel g; Get 0] in
       spec_run compat (new_user compat u n id) l = Some outs ->
       exists outs', run compat (make_user compat u n id) l = Some outs' /\ Forall2 agrees outs outs').
Proof.
  intro X.
  destruct (X (fun _ => true) arrays 2 3 incr [Some 31] incr_sensible eq_refl) as (o & R & F).
  vm_compute in R. injection R as <-. inversion F as [|? ? ? ? A]; subst.
  discriminate (A 31 eq_refl).
Qed.
Print Assumptions C78_admit_refuted.

(** Defect: release(true) hands the host copy back even when the results
    are on the device: the user's array does not get them. *)
Theorem C78_release_refuted :
  ~ (forall (compat : nat -> bool) (u : nat -> nat -> option nat) (n id : nat) v g outs,
       sensible g ->
       let l := [Admit true; Put 0 v; Kernel g; Release true; User_get id 0] in
       spec_run compat (new_user compat u n id) l = Some outs ->
       exists outs', run compat (make_user compat u n id) l = Some outs' /\ Forall2 agrees outs outs').
Proof.
  intro X.
  destruct (X (fun _ => true) arrays 2 3 7 incr [Some 8] incr_sensible eq_refl) as (o & R & F).
  vm_compute in R. injection R as <-. inversion F as [|? ? ? ? A]; subst.
  discriminate (A 8 eq_refl).
Qed.
Print Assumptions C78_release_refuted.

(** Defect: results still on the device when a block is released are
    written into whatever array the block is bound to later: reading the
    block overwrites the data of the new array with the old device
    contents. *)
Theorem C78_rebind_refuted :
  ~ (forall (compat : nat -> bool) (u : nat -> nat -> option nat) (n id id' : nat) v g outs,
       sensible g ->
       let l := [Admit true; Put 0 v; Kernel g; Release true; Rebind id' n; Admit true;
                 Get 0; Release true; User_get id' 0] in
       spec_run compat (new_user compat u n id) l = Some outs ->
       exists outs', run compat (make_user compat u n id) l = Some outs' /\ Forall2 agrees outs outs').
Proof.
  intro X.
  destruct (X (fun _ => true) arrays 2 3 4 7 incr [Some 40; Some 40] incr_sensible eq_refl)
    as (o & R & F).
  vm_compute in R. injection R as <-. inversion F as [|? ? ? ? A]; subst.
  discriminate (A 40 eq_refl).
Qed.
Print Assumptions C78_rebind_refuted.

(** Defect: a buffer kept by a device accessor is used for a second
    kernel after the host read an element: the result of the second
    kernel is never seen, since the accessor's [sync_out] does nothing. *)
Theorem C78_kept_buffer_refuted :
  ~ (forall (compat : nat -> bool) (u : nat -> nat -> option nat) (n : nat) v g g' outs,
       sensible g -> sensible g' ->
       let l := [Put 0 v; Kernel g; Get 0; Kernel2 g'; Get 0] in
       spec_run compat (new_plain u n) l = Some outs ->
       exists outs', run compat (make_plain u n true) l = Some outs' /\ Forall2 agrees outs outs').
Proof.
  intro X.
  destruct (X (fun _ => true) arrays 2 7 incr incr [Some 8; Some 9] incr_sensible incr_sensible eq_refl)
    as (o & R & F).
  vm_compute in R. injection R as <-. inversion F as [|? ? ? ? A B]; subst.
  inversion B as [|? ? ? ? A']; subst. discriminate (A' 9 eq_refl).
Qed.
Print Assumptions C78_kept_buffer_refuted.
