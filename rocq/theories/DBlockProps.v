(** * C69: element access to distributed blocks *)
From Coq Require Import List Arith ZArith Lia Bool.
From Verif Require Import Base Dist Traversal Map ParAssign DBlock DBlockProofs.
Import ListNotations.
Local Open Scope nat_scope.

(** A program of element reads and writes on distributed blocks, executed by
    every processor: in whatever order the processors proceed,
    nothing goes wrong; a processor that is finished has got the values that one
    processor with ordinary arrays gets, and holds its part of the arrays as they are at the end;
    as long as one is not finished some processor can go on; and all can finish. *)
Theorem C69_elements : forall (V : Type) (n : nat) (D : nat -> amap) (U : nat -> Prop) (X : nat -> list nat -> V) (p : prog V) (m : nat -> nat -> list nat -> V) (sched : list nat),
  (forall v, U v -> amap_ok (D v)) -> (forall v, U v -> forall q, In q (a_pvec (D v)) -> q < n) -> prog_ok V D U p ->
  (forall r, r < n -> holds_of V D U X r (m r)) -> Forall (fun r => r < n) sched ->
  exists s, exec V n D (start V m p) sched = Some s /\
    (forall r, r < n -> todo s r = Done -> got s r = seq_got V X p /\ holds_of V D U (seq_final V X p) r (mem_ s r)) /\
    ((exists r, r < n /\ todo s r <> Done) -> exists r s', r < n /\ step V n D s r = Next s') /\
    exists more s', Forall (fun r => r < n) more /\ exec V n D s more = Some s' /\ forall r, r < n -> todo s' r = Done.
Proof. exact elements_ok. Qed.

(** Block 0: six elements dealt out in pairs to processors 2 and 0 of three; block 1: replicated on all three. *)
Definition ex_maps (v : nat) : amap :=
  match v with
  | 0 => {| a_dims := [(Cyclic 2 2, 6)]; a_pvec := [2;0]; a_rep := false |}
  | _ => {| a_dims := [(Whole, 2)]; a_pvec := [1;0;2]; a_rep := true |}
  end.
Definition ex_prog : prog nat :=
  Put 0 [2] 7 (Put 0 [4] 8 (Get 0 [2] (fun a => Get 0 [5] (fun b => proxy_update nat Nat.add 1 [1] (a + b) (fun c => Get 0 [4] (fun _ => Done)))))).
Example C69_elements_ex : (forall v, v < 2 -> amap_ok (ex_maps v)) /\ (forall v, v < 2 -> forall q, In q (a_pvec (ex_maps v)) -> q < 3) /\ prog_ok nat ex_maps (fun v => v < 2) ex_prog /\
  option_map (fun s => (map (got s) [0;1;2], mem_ s 0 0 [0], map (fun r => mem_ s r 1 [1]) [0;1;2])) (exec nat 3 ex_maps (start nat (filled nat (fun v => v + 1)) ex_prog) (concat (repeat [1;2;0] 20)))
   = Some ([[7;1;2;10;8];[7;1;2;10;8];[7;1;2;10;8]], 7, [10;10;10]).
Proof.
  split; [|split; [|split; [|vm_compute; reflexivity]]].
  - intros v Hv. destruct v as [|[|v]]; [| |lia]; (constructor; [repeat constructor|intros H; first [discriminate H|repeat constructor]|repeat constructor; cbn; intuition lia|cbn; try reflexivity; lia|repeat constructor]).
  - intros v Hv q Hq. destruct v as [|[|v]]; [| |lia]; cbn in Hq; intuition lia.
  - cbn. repeat split; try lia; repeat constructor.
Qed.

(** Blocks made with a fill value: every program reads that value wherever it
    has not written. *)
Theorem C69_filled : forall (V : Type) (n : nat) (D : nat -> amap) (U : nat -> Prop) (x : nat -> V) (p : prog V) (sched : list nat),
  (forall v, U v -> amap_ok (D v)) -> (forall v, U v -> forall q, In q (a_pvec (D v)) -> q < n) -> prog_ok V D U p -> Forall (fun r => r < n) sched ->
  exists s, exec V n D (start V (filled V x) p) sched = Some s /\ forall r, r < n -> todo s r = Done -> got s r = seq_got V (fun v _ => x v) p.
Proof.
  intros V n D U x p sched A B C F. destruct (elements_ok V n D U (fun v _ => x v) p (filled V x) sched A B C) as (s & E & G & _); [|exact F|].
  - intros r _ v Hv sb ext l g _ _ _ _. reflexivity.
  - exists s. split; [exact E|]. intros r Hr Hd. apply (G r Hr Hd).
Qed.
Example C69_filled_ex : seq_got nat (fun v _ => v + 1) ex_prog = [7;1;2;10;8].
Proof. reflexivity. Qed.

(** view(i) = x, view1(i) = view2(j) and view(i) op= x do what they say: the element
    named, and no other, changes, to the value named; the value of the last is the new element. *)
Theorem C69_proxies : forall (V : Type) (X : nat -> list nat -> V) (f : V -> V -> V) v g w h x (k : prog V) (kk : V -> prog V),
  (exists X1, seq_final V X (proxy_set V v g x k) = seq_final V X1 k /\ X1 v g = x /\ forall u i, (u, i) <> (v, g) -> X1 u i = X u i) /\
  (exists X1, seq_final V X (proxy_copy V v g w h k) = seq_final V X1 k /\ X1 v g = X w h /\ forall u i, (u, i) <> (v, g) -> X1 u i = X u i) /\
  (exists X1, seq_final V X (proxy_update V f v g x kk) = seq_final V X1 (kk (f (X v g) x)) /\ X1 v g = f (X v g) x /\ forall u i, (u, i) <> (v, g) -> X1 u i = X u i).
Proof.
  intros V X f v g w h x k kk.
  assert (S1 : forall y, set V X v g y v g = y) by (intros y; unfold set; rewrite Nat.eqb_refl, (proj2 (index_eqb_iff g g) eq_refl); reflexivity).
  assert (S2 : forall y u i, (u, i) <> (v, g) -> set V X v g y u i = X u i).
  { intros y u i N. unfold set. destruct (Nat.eqb_spec u v) as [->|]; cbn [andb]; [|reflexivity]. destruct (index_eqb i g) eqn:E; [|reflexivity]. apply index_eqb_iff in E. subst i. contradiction. }
  split; [|split].
  - exists (set V X v g x). auto.
  - exists (set V X v g (X w h)). auto.
  - exists (set V X v g (f (X v g) x)). cbn [proxy_update seq_final]. rewrite S1. auto.
Qed.
Example C69_proxies_ex : seq_final nat (fun _ _ => 3) (proxy_update nat Nat.mul 0 [1] 5 (fun _ => Done)) 0 [1] = 15.
Proof. reflexivity. Qed.

(** The map constructors accept a processor listed twice.  An element of the
    second subblock then can be neither written nor read: the write is dropped on every processor and the read
    fails on its root. *)
Theorem C69_repeated_processor_refuted : exists (a : amap) (g : list nat), map_ok (a_dims a) /\ length (a_pvec a) = map_num_subblocks (a_dims a) /\ in_range (a_ext a) g /\
  (forall r m x, block_put nat a r m g x = Some m) /\
  (forall m, step nat 2 (fun _ => a) (start nat m (Get 0 g (fun _ => Done))) 1 = Fail).
Proof.
  exists {| a_dims := [(Block 2, 6)]; a_pvec := [1;1]; a_rep := false |}, [4]. split; [repeat constructor|]. split; [reflexivity|]. split; [repeat constructor|]. split.
  - intros r m x. unfold block_put, a_sfg. cbn [a_rep a_dims]. replace (map_subblock_from_global_index [(Block 2, 6)] [4]) with (Some 1) by reflexivity. cbn [bind].
    replace (same_sb _ r 1) with false; [reflexivity|]. unfold same_sb, a_subblock. cbn [a_rep a_dims a_pvec]. unfold map_subblock. cbn [rank_from_proc]. destruct r as [|[|r]]; reflexivity.
  - intros m. vm_compute. reflexivity.
Qed.
(** The same for a replicated map: two entries for processor 0 on two
    processors pass for "all processors hold it", and processor 1 reads from a local
    block that has no elements. *)
Theorem C69_repeated_replica_refuted : exists (a : amap) (g : list nat), a_rep a = true /\ 0 < length (a_pvec a) /\ (forall q, In q (a_pvec a) -> q < 2) /\ in_range (a_ext a) g /\
  lsize a 1 = Some [0] /\ forall m, step nat 2 (fun _ => a) (start nat m (Get 0 g (fun _ => Done))) 1 = Fail.
Proof.
  exists {| a_dims := [(Whole, 3)]; a_pvec := [0;0]; a_rep := true |}, [1]. split; [reflexivity|]. split; [cbn; lia|]. split; [cbn; intuition lia|]. split; [repeat constructor|]. split; [reflexivity|].
  intros m. vm_compute. reflexivity.
Qed.

Print Assumptions C69_elements.
Print Assumptions C69_filled.
Print Assumptions C69_proxies.
Print Assumptions C69_repeated_processor_refuted.
Print Assumptions C69_repeated_replica_refuted.
