(** * C59: memory handed out by the pool allocator is the caller's alone *)

From Coq Require Import ZArith List Bool Lia.
Require Import Verif.Base Verif.Pool Verif.PoolProofs.
Import ListNotations.
Local Open Scope Z_scope.

(** Along every history of allocations, client writes and returns (each
    return in one of the situations [good_free]) no call is undefined. *)
Theorem C59_calls_defined_partial :
  forall s0 s live e,
    fresh s0 -> history careful s0 s live -> careful s live e ->
    exists s' live', run_event s live e = Some (s', live').
Proof.
  intros s0 s live e H0 H He. apply fresh_inv in H0.
  destruct (history_inv _ _ _ H0 H) as [[l I] _]. exact (event_defined _ _ _ _ I He).
Qed.

(** The chunks held at any time are aligned to 128 bytes, inside the pool, and
    no two have a byte in common. *)
Theorem C59_chunks_exclusive_partial :
  forall s0 s live,
    fresh s0 -> history careful s0 s live ->
    (forall p n, In (p, n) live ->
       p mod 128 = 0 /\
       p_base s0 <= p /\ p + n <= p + 128 * units n <= p_base s0 + p_size s0) /\
    ForallOrdPairs apart live.
Proof.
  intros s0 s live H0 H. apply fresh_inv in H0.
  destruct (history_inv _ _ _ H0 H) as [[l I] [<- <-]]. split.
  - intros p n Hin. pose proof (proj1 (Forall_forall _ _) (inv_chunks _ _ _ I) _ Hin) as (C1 & C2 & C3 & C4).
    cbn [fst snd] in *. repeat split; auto. unfold units.
    pose proof (Z.div_mod (n + 127) 128 ltac:(lia)). pose proof (Z.mod_pos_bound (n + 127) 128 ltac:(lia)). lia.
  - exact (inv_apart _ _ _ I).
Qed.

(** Allocating, or returning another chunk, leaves the contents of a chunk
    alone. *)
Theorem C59_contents_kept_partial :
  forall s0 s live e s' live' c x,
    fresh s0 -> history careful s0 s live -> careful s live e ->
    (forall y v, e <> Poke y v) ->
    run_event s live e = Some (s', live') ->
    In c live -> In c live' -> chunk_byte c x ->
    p_mem s' x = p_mem s x.
Proof.
  intros s0 s live e s' live' c x H0 H He NW Hr Hc Hc' Hx. apply fresh_inv in H0.
  destruct (history_inv _ _ _ H0 H) as [[l I] _].
  exact (history_contents _ _ _ _ _ _ _ _ I He NW Hr Hc Hc' Hx).
Qed.

(** A request is met if and only if somewhere in the pool there is a run of
    enough bytes that no chunk uses. *)
Theorem C59_request_met_partial :
  forall s0 s live n,
    fresh s0 -> history careful s0 s live -> 0 <= n <= W64 - 128 ->
    ((exists s' p, allocate s n = Some (s', Got p)) <->
     exists x, free_run s live x (128 * units n)).
Proof.
  intros s0 s live n H0 H Hn. apply fresh_inv in H0.
  destruct (history_inv _ _ _ H0 H) as [[l I] _]. exact (alloc_complete _ _ _ _ I Hn).
Qed.

(** [total_avail()] is the size of the pool less the chunks held. *)
Theorem C59_total_avail_partial :
  forall s0 s live,
    fresh s0 -> history careful s0 s live ->
    p_avail s = p_size s0 - held live.
Proof.
  intros s0 s live H0 H. apply fresh_inv in H0.
  destruct (history_inv _ _ _ H0 H) as [[l I] [_ <-]].
  rewrite (inv_avail _ _ _ I). pose proof (inv_sum _ _ _ I). lia.
Qed.

(** Finding (memory corruption): returning a chunk just above a free block
    merges the two with the wrong size (the size of the returned chunk is
    added to itself, that of the block before is dropped).  If the block
    before is the smaller one, the allocator then hands out memory that another
    chunk still uses. *)
Theorem C59_merge_overlap_refuted :
  ~ (forall s0 s live, fresh s0 -> history legal s0 s live -> ForallOrdPairs apart live).
Proof.
  intros H. destruct overlap_run as [L R].
  destruct (run_events demo [] overlap_events) as [[s live]|] eqn:E; [|discriminate R].
  cbn [option_map snd] in R. injection R as ->.
  specialize (H _ _ _ demo_fresh (demo_run _ _ _ L E)).
  inversion H as [|c t Hc Ht]; subst. inversion Hc as [|d u Hd Hu]; subst.
  apply (Hd 1048960). split; vm_compute; split; congruence.
Qed.

(** Finding (wild pointer): when no free block lies above the returned chunk,
    [deallocate] does not set the chunk's link: the link is whatever the client
    last stored there.  A later request that walks the list follows it. *)
Theorem C59_free_last_refuted :
  ~ (forall s0 s live e, fresh s0 -> history legal s0 s live -> legal s live e ->
       exists s' live', run_event s live e = Some (s', live')).
Proof.
  intros H. destruct wild_run as [L R].
  destruct (run_events demo [] wild_events) as [[s live]|] eqn:E; [|discriminate R].
  cbn [option_map fst snd] in R.
  destruct (H _ _ _ (Alloc 16777216) demo_fresh (demo_run _ _ _ L E)) as (s' & live' & Q).
  - cbn [legal]. unfold W64. lia.
  - rewrite Q in R. discriminate R.
Qed.

(** Finding (lost memory): in the same situation the free blocks below the
    returned chunk are forgotten: with nothing held, a request for the whole
    pool fails. *)
Theorem C59_lost_memory_refuted :
  ~ (forall s0 s n, fresh s0 -> history legal s0 s [] -> 0 <= n <= p_size s0 ->
       exists s' p, allocate s n = Some (s', Got p)).
Proof.
  intros H. destruct lost_run as [L R].
  destruct (run_events demo [] lost_events) as [[s live]|] eqn:E; [|discriminate R].
  cbn [option_map fst snd] in R.
  injection R as -> R.
  destruct (H _ _ 16777216 demo_fresh (demo_run _ _ _ L E)) as (s' & p & Q).
  - cbn [demo p_size]. lia.
  - rewrite Q in R. discriminate R.
Qed.

(** Finding: a request within 127 bytes of 2^64 is rounded up to zero bytes;
    it succeeds, and the block it returns is still in the free list. *)
Theorem C59_huge_request_refuted :
  ~ (forall s0 n, fresh s0 -> p_size s0 < n < W64 ->
       allocate s0 n = Some (s0, Bad_alloc)).
Proof.
  intros H. specialize (H demo (W64 - 1) demo_fresh).
  assert (Q : p_size demo < W64 - 1 < W64) by (vm_compute; split; reflexivity).
  specialize (H Q).
  assert (E : match allocate demo (W64 - 1) with Some (_, Got _) => true | _ => false end = true)
    by (vm_compute; reflexivity).
  rewrite H in E. discriminate E.
Qed.

(** Finding: the size of the pool is computed in [int]; it overflows from 128
    pages (2 GB) on. *)
Theorem C59_page_count_refuted :
  ~ (forall m addr pages, 0 < addr -> addr mod 4096 = 0 -> 0 < pages ->
       addr + pages * 16777216 < W64 -> exists s, pool_init m addr pages = Some s).
Proof.
  intros H. destruct (H (fun _ => 0) 4096 128) as [s E]; try reflexivity.
  discriminate E.
Qed.

(** The hypotheses are met: a careful history with three chunks, a client
    write, a return at the bottom of the pool, and a return next to a free
    block of the same size; what is free afterwards is one run of 256 bytes
    below the remaining chunk and the rest above it. *)
Example C59_ex_history :
  fresh demo /\
  history careful demo (fst (demo_at 6)) (snd (demo_at 6)) /\
  snd (demo_at 6) = [(1048832, 300)].
Proof. exact (conj demo_fresh demo_history). Qed.

Example C59_ex_next :
  option_map (fun r => match snd r with Got p => p | Bad_alloc => 0 end)
    (allocate (fst (demo_at 6)) 256) = Some 1048576 /\
  option_map (fun r => match snd r with Got p => p | Bad_alloc => 0 end)
    (allocate (fst (demo_at 6)) 257) = Some 1049216.
Proof. split; vm_compute; reflexivity. Qed.

Print Assumptions C59_calls_defined_partial.
Print Assumptions C59_chunks_exclusive_partial.
Print Assumptions C59_contents_kept_partial.
Print Assumptions C59_request_met_partial.
Print Assumptions C59_total_avail_partial.
Print Assumptions C59_merge_overlap_refuted.
Print Assumptions C59_free_last_refuted.
Print Assumptions C59_lost_memory_refuted.
Print Assumptions C59_huge_request_refuted.
Print Assumptions C59_page_count_refuted.
