(** C81: objects that own OpenCL handles. *)
From Coq Require Import List Arith Bool Lia.
From Verif Require Import Handles HandlesProofs.
Import ListNotations.

(** Whatever a program creates, wraps, copies, assigns and destroys, in any
    order: every OpenCL object has as many references as there are C++
    objects that refer to it and references of the program's own. *)
Theorem C81_counts root cl12 n first l s :
  Forall (names_below n) l -> Forall (root_devices root) l -> run root cl12 l (start first) = Ok s ->
  forall h, root h = false -> cnt s h = own s h + holders s h n.
Proof.
  intros F R E. pose proof (run_good root cl12 n l (start first) F R (start_inv root n first)) as G. rewrite E in G. exact (i_cnt _ _ _ G).
Qed.

(** Hence an object that a C++ object refers to is there ... *)
Theorem C81_held_is_there root cl12 n first l s x k h :
  Forall (names_below n) l -> Forall (root_devices root) l -> run root cl12 l (start first) = Ok s ->
  vars s x = Some (k, Some h) -> root h = false -> 0 < cnt s h.
Proof.
  intros F R E V H. pose proof (run_good root cl12 n l (start first) F R (start_inv root n first)) as G. rewrite E in G. exact (live_held _ _ s x k h G V H).
Qed.

(** ... and when all C++ objects are destroyed and the program has given up
    its own references, every OpenCL object is released. *)
Theorem C81_all_released root cl12 n first l s :
  Forall (names_below n) l -> Forall (root_devices root) l -> run root cl12 l (start first) = Ok s ->
  (forall x, vars s x = None) -> (forall h, own s h = 0) -> forall h, root h = false -> cnt s h = 0.
Proof.
  intros F R E V O h H. rewrite (C81_counts root cl12 n first l s F R E h H), O, (no_holders s h V). reflexivity.
Qed.

(** No such program releases or uses an object that is gone.  The only steps
    that can go wrong are the destruction of a program, kernel or device
    object without a handle, and the assignment of buffer objects. *)
Theorem C81_only_faults root cl12 n first l :
  Forall (names_below n) l -> Forall (root_devices root) l -> run root cl12 l (start first) = Fault ->
  exists l1 o l2 s1, l = l1 ++ o :: l2 /\ run root cl12 l1 (start first) = Ok s1 /\
    ((exists x k, o = Destroy x /\ vars s1 x = Some (k, None) /\ (k = Prog \/ k = Kern \/ k = Dev /\ cl12 = true)) \/
     (exists x y i, o = Assign x y /\ vars s1 x = Some (Buf, i))).
Proof.
  intros F R E. pose proof (run_good root cl12 n l (start first) F R (start_inv root n first)) as G. rewrite E in G. exact G.
Qed.

(** A context, two copies of it, one of which is overwritten by itself and
    then by another context; a buffer that is copied; everything destroyed
    but the first context. *)
Example C81_counts_example :
  let l := [Create 0 Ctx true; Copy 1 0; Copy 2 0; Assign 2 2; Create 3 Ctx true; Assign 2 3; Raw; Wrap 4 Buf 7 true; Copy 5 4; RawRelease 7;
            Destroy 4; Use 5; Destroy 3; Destroy 2; Destroy 1; Create 6 Que false] in
  Forall (names_below 7) l /\ Forall (root_devices (fun _ => false)) l /\
  match run (fun _ => false) true l (start 5) with
  | Ok s => map (cnt s) [5; 6; 7] = [1; 0; 1] /\ vars s 0 = Some (Ctx, Some 5) /\ vars s 5 = Some (Buf, Some 7)
  | _ => False
  end.
Proof.
  split; [repeat constructor|]. split; [repeat constructor|]. vm_compute. repeat split.
Qed.
(** Root devices, which are not counted, can be wrapped with and without
    retaining them, copied, assigned and destroyed, before and since OpenCL
    1.2; another object cannot be made from the handle of a device. *)
Example C81_root_device_example :
  let l := [Wrap 0 Dev 2 false; Wrap 1 Dev 3 true; Copy 2 0; Assign 2 1; Use 2; Destroy 0; Destroy 1] in
  Forall (names_below 3) l /\ Forall (root_devices (fun h => h <? 5)) l /\
  (forall cl12, match run (fun h => h <? 5) cl12 l (start 5) with Ok s => map (vars s) [0; 1; 2] = [None; None; Some (Dev, Some 3)] | _ => False end) /\
  run (fun h => h <? 5) true [Wrap 0 Ctx 2 false] (start 5) = Bad.
Proof.
  split; [repeat constructor|]. split; [repeat constructor|]. split; [intros []; reflexivity|reflexivity].
Qed.
Example C81_all_released_example :
  let l := [Create 0 Kern true; Default 1 Kern; Assign 1 0; Destroy 0; Destroy 1] in
  exists s, run (fun _ => false) true l (start 5) = Ok s /\ (forall x, vars s x = None) /\ (forall h, own s h = 0) /\ cnt s 5 = 0.
Proof.
  eexists. split; [reflexivity|]. split; [intros [|[|x]]; reflexivity|]. split; reflexivity.
Qed.

(** Defect: a program, kernel or device object that was never given a handle
    cannot be destroyed: its destructor releases the null handle, gets an
    error and throws. *)
Theorem C81_null_refuted : forall root first x k, k = Prog \/ k = Kern \/ k = Dev ->
  run root true [Default x k; Destroy x] (start first) = Fault.
Proof. intros root first x k K. cbn. unfold upd. rewrite Nat.eqb_refl. destruct K as [->|[->| ->]]; reflexivity. Qed.

(** Defect: the assignment operator of buffer objects ends without returning
    a value, which is undefined behaviour, for every two buffers. *)
Theorem C81_buffer_assignment_refuted : forall root cl12 s x y i j,
  vars s x = Some (Buf, i) -> vars s y = Some (Buf, j) -> step root cl12 (Assign x y) s = Fault.
Proof. intros root cl12 s x y i j Ex Ey. cbn. rewrite Ex, Ey. cbn. destruct (x =? y); reflexivity. Qed.

(** Defect: copying a device object does not retain the device, destroying
    the copy releases it: with a sub-device the original is left with a
    device that is gone. *)
Theorem C81_device_copy_refuted : exists s,
  run (fun _ => false) true [Raw; Wrap 0 Dev 5 false; Copy 1 0; Destroy 1] (start 5) = Ok s /\
  vars s 0 = Some (Dev, Some 5) /\ cnt s 5 = 0 /\ step (fun _ => false) true (Use 0) s = Fault /\ step (fun _ => false) true (Destroy 0) s = Fault.
Proof. eexists. split; [reflexivity|]. repeat split. Qed.

(** The default device is the platform's first accelerator, or its first
    device if it has none; before and after whatever else was asked for. *)
Theorem C81_default_device ps idx pl l :
  nth_error ps idx = Some pl ->
  let ask := snd (default_device ps idx (fold_left (do_call ps idx) l none_yet)) in
  (forall pre d post, p_devices pl = pre ++ d :: post -> snd d = Accelerator -> Forall (fun e => snd e <> Accelerator) pre -> ask = Some (fst d)) /\
  (forall d post, p_devices pl = d :: post -> Forall (fun e => snd e <> Accelerator) (p_devices pl) -> ask = Some (fst d)) /\
  (p_devices pl = [] -> ask = None).
Proof.
  intros HP ask. unfold ask. rewrite (proj2 (dev_ok ps idx pl HP _ (calls_ok ps idx pl HP l none_yet (none_ok pl)))). unfold pick.
  assert (Q : forall pre, Forall (fun e : nat * dtype => snd e <> Accelerator) pre -> filter is_accelerator pre = []).
  { induction 1 as [|[a t] pre H F IH]; [reflexivity|]. cbn. unfold is_accelerator at 1. cbn in *. destruct t; [exact IH|exact IH|congruence]. }
  split; [|split].
  - intros pre d post E A F. rewrite E, filter_app, (Q pre F). cbn. unfold is_accelerator at 1. rewrite A. reflexivity.
  - intros d post E F. rewrite (Q _ F), E. reflexivity.
  - intros E. rewrite E. reflexivity.
Qed.

(** The default queue, if there is one, is a queue of the default device in
    the default context, and the answers never change. *)
Theorem C81_defaults_agree ps idx pl l l' :
  nth_error ps idx = Some pl ->
  let s := fold_left (do_call ps idx) l none_yet in let s' := fold_left (do_call ps idx) l' none_yet in
  snd (default_device ps idx s) = snd (default_device ps idx s') /\ snd (default_context ps idx s) = snd (default_context ps idx s') /\
  snd (default_queue ps idx s) = snd (default_queue ps idx s') /\
  forall c d, snd (default_queue ps idx s) = Some (c, d) ->
    snd (default_context ps idx s) = Some c /\ snd (default_device ps idx s) = Some d /\ In d c.
Proof.
  intros HP s s'.
  pose proof (calls_ok ps idx pl HP l none_yet (none_ok pl)) as K. pose proof (calls_ok ps idx pl HP l' none_yet (none_ok pl)) as K'.
  fold s in K. fold s' in K'.
  rewrite (proj2 (dev_ok ps idx pl HP s K)), (proj2 (dev_ok ps idx pl HP s' K')), (proj2 (ctx_ok ps idx pl HP s K)), (proj2 (ctx_ok ps idx pl HP s' K')),
    (proj2 (que_ok ps idx pl HP s K)), (proj2 (que_ok ps idx pl HP s' K')).
  split; [reflexivity|]. split; [reflexivity|]. split; [reflexivity|]. intros c d.
  destruct (ctx_of pl) as [c0|]; [|discriminate]. destruct (pick pl) as [d0|]; [|discriminate]. destruct (existsb (Nat.eqb d0) c0) eqn:E; [|discriminate].
  intros Q. injection Q as -> ->. split; [reflexivity|]. split; [reflexivity|]. apply existsb_exists in E as (z & Hz & Ez). apply Nat.eqb_eq in Ez as ->. exact Hz.
Qed.
Example C81_defaults_example :
  let ps := [{| p_devices := [(1, Cpu); (2, Accelerator)]; p_default := Some 2 |}] in
  snd (default_queue ps 0 none_yet) = Some ([2], 2).
Proof. reflexivity. Qed.

(** Defect: the default context is that of the platform's default device,
    the default device is chosen by another rule.  On a platform with a
    processor first and a graphics card as its default device, there is a
    default device and a default context but never a default queue, so no
    operation of the library can use the device. *)
Theorem C81_no_queue_refuted : exists ps pl, nth_error ps 0 = Some pl /\ p_devices pl = [(1, Cpu); (2, Gpu)] /\ p_default pl = Some 2 /\
  forall l, let s := fold_left (do_call ps 0) l none_yet in
    snd (default_device ps 0 s) = Some 1 /\ snd (default_context ps 0 s) = Some [2] /\ snd (default_queue ps 0 s) = None.
Proof.
  set (pl := {| p_devices := [(1, Cpu); (2, Gpu)]; p_default := Some 2 |}). exists [pl], pl. split; [reflexivity|]. split; [reflexivity|]. split; [reflexivity|].
  intros l s. pose proof (calls_ok [pl] 0 pl eq_refl l none_yet (none_ok pl)) as K. fold s in K.
  rewrite (proj2 (dev_ok [pl] 0 pl eq_refl s K)), (proj2 (ctx_ok [pl] 0 pl eq_refl s K)), (proj2 (que_ok [pl] 0 pl eq_refl s K)). repeat split.
Qed.

Print Assumptions C81_counts.
Print Assumptions C81_held_is_there.
Print Assumptions C81_all_released.
Print Assumptions C81_only_faults.
Print Assumptions C81_null_refuted.
Print Assumptions C81_buffer_assignment_refuted.
Print Assumptions C81_device_copy_refuted.
Print Assumptions C81_default_device.
Print Assumptions C81_defaults_agree.
Print Assumptions C81_no_queue_refuted.
