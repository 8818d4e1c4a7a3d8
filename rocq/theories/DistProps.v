(** Property theorems C09, C10, C11. *)
From Coq Require Import List Arith Lia Bool Permutation.
From Verif Require Import Base Dist DistProofs.
Import ListNotations.

Theorem C09_block_partition :
  forall num n, 0 < num -> partitioned (Block num) n.
Proof. intros num n H. apply dist_partitioned. apply Nat.ltb_lt, H. Qed.
Print Assumptions C09_block_partition.

(** The subblocks follow each other: the first starts at 0, each next one
    starts where the previous ended, the last ends at [n]. *)
Theorem C09_block_contiguous_in_order :
  forall num n, 0 < num ->
  forall sb f l, sb < num -> patch_global_dom (Block num) n sb 0 = Some (f, l) ->
     (sb = 0 -> f = 0) /\ (sb + 1 = num -> f + l = n) /\
     (sb + 1 < num -> exists l', patch_global_dom (Block num) n (sb + 1) 0 = Some (f + l, l')).
Proof. exact block_contiguous_lemma. Qed.
Print Assumptions C09_block_contiguous_in_order.

Example C09_example :
  map (fun sb => patch_global_dom (Block 4) 10 sb 0) [0;1;2;3]
    = [Some (0,3); Some (3,3); Some (6,2); Some (8,2)] /\
  map (subblock_from_index (Block 4) 10) [0;5;6;9] = [Some 0; Some 1; Some 2; Some 3] /\
  map (fun sb => patch_global_dom (Block 4) 2 sb 0) [0;1;2;3]
    = [Some (0,1); Some (1,1); Some (2,0); Some (2,0)].
Proof. repeat split. Qed.

Theorem C10_cyclic_partition :
  forall num c n, 0 < num -> 0 < c -> partitioned (Cyclic num c) n.
Proof.
  intros num c n H H'. apply dist_partitioned. cbn [dist_ok].
  apply andb_true_intro. split; apply Nat.ltb_lt; assumption.
Qed.
Print Assumptions C10_cyclic_partition.

(** Patches of a block-cyclic distribution are never empty and never
    longer than the contiguity. *)
Theorem C10_cyclic_patch_sizes :
  forall num c n sb p f l, 0 < c ->
  patch_global_dom (Cyclic num c) n sb p = Some (f, l) -> 0 < l <= c.
Proof. exact cyclic_patch_size_lemma. Qed.
Print Assumptions C10_cyclic_patch_sizes.

Example C10_example :
  map (subblock_size (Cyclic 3 4) 18) [0;1;2] = [Some 8; Some 6; Some 4] /\
  held (Cyclic 3 4) 18 1 = [4;5;6;7;16;17] /\
  patch_global_dom (Cyclic 3 4) 18 1 1 = Some (16, 2) /\
  patch_local_dom (Cyclic 3 4) 18 1 1 = Some (4, 2).
Proof. repeat split. Qed.

Theorem C11_block_balanced :
  forall num n sb sb' s s',
  subblock_size (Block num) n sb = Some s -> subblock_size (Block num) n sb' = Some s' ->
  s <= s' + 1.
Proof. exact block_balanced_lemma. Qed.
Print Assumptions C11_block_balanced.

Theorem C11_cyclic_balanced :
  forall num c n sb sb' s s', 0 < c ->
  subblock_size (Cyclic num c) n sb = Some s -> subblock_size (Cyclic num c) n sb' = Some s' ->
  s <= s' + c.
Proof. exact cyclic_balanced_lemma. Qed.
Print Assumptions C11_cyclic_balanced.

Example C11_example :
  subblock_size (Block 3) 8 0 = Some 3 /\ subblock_size (Block 3) 8 2 = Some 2 /\
  subblock_size (Cyclic 3 5) 16 0 = Some 6 /\ subblock_size (Cyclic 3 5) 16 1 = Some 5.
Proof. repeat split. Qed.
