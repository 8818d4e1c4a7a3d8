(** Model of the one-dimensional data distributions
    (src/vsip/impl/dist.hpp 36-351, src/ovxx/parallel/dist_utils.hpp).
    Every function receives the whole Domain<1> but uses only its
    length, here [n].  Simplification: sizes do not reach 2^64, so sums
    and products do not wrap; a subtraction that would wrap and a
    division by zero give [None].  A patch domain Domain<1>(first,1,len)
    is the pair (first, len). *)
From Coq Require Import List Arith Lia Bool Permutation.
From Verif Require Import Base.
Import ListNotations.

(** Unsigned subtraction and division that must not wrap / trap. *)
Definition csub (a b : nat) : option nat := if b <=? a then Some (a - b) else None.
Definition cdiv (a b : nat) : option nat := if b =? 0 then None else Some (a / b).
Definition cmod (a b : nat) : option nat := if b =? 0 then None else Some (a mod b).

(** dist_utils.hpp 29-33: segment_size (block). *)
Definition segment_size_block (size num pos : nat) : option nat :=
  q <- cdiv size num ;; r <- cmod size num ;;
  Some (q + (if pos <? r then 1 else 0)).

(** dist_utils.hpp 58-63, 97-103, 131-137: chunk counting common to the
    three block-cyclic functions. *)
Definition num_chunks (size chunk_size : nat) : option nat :=
  q <- cdiv size chunk_size ;; r <- cmod size chunk_size ;;
  Some (q + (if r =? 0 then 0 else 1)).

(** dist_utils.hpp 93-109: segment_chunks. *)
Definition segment_chunks (size num chunk_size pos : nat) : option nat :=
  assert (pos <? num) ;;
  nc <- num_chunks size chunk_size ;;
  q <- cdiv nc num ;; r <- cmod nc num ;;
  Some (q + (if pos <? r then 1 else 0)).

(** dist_utils.hpp 50-74: segment_size (block-cyclic). *)
Definition segment_size_cyclic (size num chunk_size pos : nat) : option nat :=
  assert (pos <? num) ;;
  nc <- num_chunks size chunk_size ;;
  q <- cdiv nc num ;; r <- cmod nc num ;;
  let seg_chunks := q + (if pos <? r then 1 else 0) in
  let seg_size := seg_chunks * chunk_size in
  let rem := size mod chunk_size in
  if negb (rem =? 0) && ((pos + 1) mod num =? r) then
    s <- csub seg_size chunk_size ;; Some (s + rem)
  else Some seg_size.

(** dist_utils.hpp 124-148: segment_chunk_size. *)
Definition segment_chunk_size (size num chunk_size spos cpos : nat) : option nat :=
  assert (spos <? num) ;;
  nc <- num_chunks size chunk_size ;;
  q <- cdiv nc num ;; r <- cmod nc num ;;
  let seg_chunks := q + (if spos <? r then 1 else 0) in
  assert (cpos <? seg_chunks) ;;
  let rem := size mod chunk_size in
  if negb (rem =? 0) && ((spos + 1) mod num =? r) && (cpos =? seg_chunks - 1)
  then Some rem else Some chunk_size.

(** dist_utils.hpp 158-164: segment_start. *)
Definition segment_start (size num pos : nat) : option nat :=
  q <- cdiv size num ;; r <- cmod size num ;;
  Some (pos * q + Nat.min pos r).

(** The three distribution classes; Block_dist and Cyclic_dist keep their
    constructor arguments (dist.hpp 91-95, 204-211). *)
Inductive dist := Whole | Block (num : nat) | Cyclic (num contiguity : nat).

(** Constructor preconditions (dist.hpp 94, 210). *)
Definition dist_ok (d : dist) : bool :=
  match d with
  | Whole => true
  | Block num => 0 <? num
  | Cyclic num c => (0 <? num) && (0 <? c)
  end.

(** num_subblocks(): dist.hpp 48, 99, 217. *)
Definition num_subblocks (d : dist) : nat :=
  match d with Whole => 1 | Block num => num | Cyclic num _ => num end.

(** cyclic_contiguity(): dist.hpp 49, 100, 218. *)
Definition cyclic_contiguity (d : dist) : nat :=
  match d with Cyclic _ c => c | _ => 0 end.

(** impl_subblock_patches: dist.hpp 51-53, 102-108, 227-235. *)
Definition subblock_patches (d : dist) (n sb : nat) : option nat :=
  match d with
  | Whole => assert (sb =? 0) ;; Some 1
  | Block num => assert (sb <? num) ;; Some 1
  | Cyclic num c => assert (sb <? num) ;; segment_chunks n num c sb
  end.

(** impl_subblock_size: dist.hpp 55-57, 110-116, 244-250. *)
Definition subblock_size (d : dist) (n sb : nat) : option nat :=
  match d with
  | Whole => assert (sb =? 0) ;; Some n
  | Block num => assert (sb <? num) ;; segment_size_block n num sb
  | Cyclic num c => assert (sb <? num) ;; segment_size_cyclic n num c sb
  end.

(** impl_patch_global_dom: dist.hpp 59-63, 118-131, 260-273. *)
Definition patch_global_dom (d : dist) (n sb p : nat) : option (nat * nat) :=
  match d with
  | Whole => assert ((sb =? 0) && (p =? 0)) ;; Some (0, n)
  | Block num =>
      assert (sb <? num) ;; assert (p =? 0) ;;
      f <- segment_start n num sb ;; l <- segment_size_block n num sb ;; Some (f, l)
  | Cyclic num c =>
      assert (sb <? num) ;;
      k <- subblock_patches (Cyclic num c) n sb ;; assert (p <? k) ;;
      l <- segment_chunk_size n num c sb p ;;
      Some ((sb + p * num) * c, l)
  end.

(** impl_patch_local_dom: dist.hpp 65-69, 133-143, 283-294. *)
Definition patch_local_dom (d : dist) (n sb p : nat) : option (nat * nat) :=
  match d with
  | Whole => assert ((sb =? 0) && (p =? 0)) ;; Some (0, n)
  | Block num =>
      assert (sb <? num) ;; assert (p =? 0) ;;
      l <- segment_size_block n num sb ;; Some (0, l)
  | Cyclic num c =>
      assert (sb <? num) ;;
      k <- subblock_patches (Cyclic num c) n sb ;; assert (p <? k) ;;
      l <- segment_chunk_size n num c sb p ;;
      Some (p * c, l)
  end.

(** impl_subblock_from_index: dist.hpp 71-73, 150-161, 296-304. *)
Definition subblock_from_index (d : dist) (n i : nat) : option nat :=
  match d with
  | Whole => assert (i <? n) ;; Some 0
  | Block num =>
      q <- cdiv n num ;; r <- cmod n num ;;
      if i <? (q + 1) * r then cdiv i (q + 1)
      else j <- csub i r ;; cdiv j q
  | Cyclic num c => pg <- cdiv i c ;; cmod pg num
  end.

(** impl_patch_from_index: dist.hpp 75-77, 163-165, 306-316. *)
Definition patch_from_index (d : dist) (n i : nat) : option nat :=
  match d with
  | Whole => assert (i <? n) ;; Some 0
  | Block _ => assert (i <? n) ;; Some 0
  | Cyclic num c =>
      pg <- cdiv i c ;; sb <- cmod pg num ;; x <- csub pg sb ;; cdiv x num
  end.

(** impl_local_from_global_index: dist.hpp 79-81, 167-177, 318-329. *)
Definition local_from_global_index (d : dist) (n i : nat) : option nat :=
  match d with
  | Whole => assert (i <? n) ;; Some i
  | Block num =>
      q <- cdiv n num ;; r <- cmod n num ;;
      if i <? (q + 1) * r then cmod i (q + 1)
      else j <- csub i r ;; cmod j q
  | Cyclic num c =>
      pg <- cdiv i c ;; po <- cmod i c ;;
      sb <- cmod pg num ;; x <- csub pg sb ;; pl <- cdiv x num ;;
      Some (pl * c + po)
  end.

(** impl_global_from_local_index: dist.hpp 83-87, 186-195, 339-346. *)
Definition global_from_local_index (d : dist) (n sb i : nat) : option nat :=
  match d with
  | Whole => assert ((i <? n) && (sb =? 0)) ;; Some i
  | Block num =>
      q <- cdiv n num ;; r <- cmod n num ;;
      Some (sb * q + Nat.min sb r + i)
  | Cyclic num c =>
      assert (sb <? num) ;;
      p <- cdiv i c ;; po <- cmod i c ;;
      Some ((p * num + sb) * c + po)
  end.

(** * Specification *)

(** Global index [i] belongs to patch [p] of subblock [sb]. *)
Definition in_patch (d : dist) (n sb p i : nat) : Prop :=
  exists f l, patch_global_dom d n sb p = Some (f, l) /\ f <= i < f + l.

(** Local index [j] of subblock [sb] belongs to its patch [p]. *)
Definition in_local_patch (d : dist) (n sb p j : nat) : Prop :=
  exists f l, patch_local_dom d n sb p = Some (f, l) /\ f <= j < f + l.

Definition val (o : option nat) : nat := match o with Some x => x | None => 0 end.

(** The global indices held by subblock [sb], in local order. *)
Definition held (d : dist) (n sb : nat) : list nat :=
  map (fun j => val (global_from_local_index d n sb j)) (seq 0 (val (subblock_size d n sb))).

(** A distribution of [n] elements partitions the index range. *)
Record partitioned (d : dist) (n : nat) : Prop := {
  (** every global index lies in exactly one patch of one subblock, and
      the look-up functions find it *)
  part_home : forall i, i < n -> exists sb p,
     sb < num_subblocks d /\ in_patch d n sb p i /\
     subblock_from_index d n i = Some sb /\ patch_from_index d n i = Some p /\
     forall sb' p', in_patch d n sb' p' i -> sb' = sb /\ p' = p;
  (** patches contain only existing indices *)
  part_inside : forall sb p i, in_patch d n sb p i -> i < n;
  (** global -> (subblock, local) -> global *)
  part_there_back : forall i, i < n -> exists sb j s,
     subblock_from_index d n i = Some sb /\ local_from_global_index d n i = Some j /\
     subblock_size d n sb = Some s /\ j < s /\ global_from_local_index d n sb j = Some i;
  (** (subblock, local) -> global -> (subblock, local) *)
  part_back_there : forall sb s j, subblock_size d n sb = Some s -> j < s ->
     exists g, global_from_local_index d n sb j = Some g /\ g < n /\
       subblock_from_index d n g = Some sb /\ local_from_global_index d n g = Some j;
  (** the local patches of a subblock tile its local index range *)
  part_local_tiles : forall sb s, subblock_size d n sb = Some s -> forall j,
     (j < s <-> exists p, in_local_patch d n sb p j) /\
     (forall p p', in_local_patch d n sb p j -> in_local_patch d n sb p' j -> p = p');
  (** a local patch and the global patch of the same number correspond
      element by element *)
  part_patch_match : forall sb p f l, patch_global_dom d n sb p = Some (f, l) ->
     exists lf, patch_local_dom d n sb p = Some (lf, l) /\
       forall x, x < l -> global_from_local_index d n sb (lf + x) = Some (f + x);
  (** sizes and patches exist exactly for the valid subblocks / patches *)
  part_defined : forall sb, sb < num_subblocks d <-> exists s, subblock_size d n sb = Some s;
  part_patches : forall sb k, subblock_patches d n sb = Some k -> forall p,
     p < k <-> exists fl, patch_global_dom d n sb p = Some fl;
  (** nothing lost, nothing duplicated *)
  part_permutation :
     Permutation (flat_map (held d n) (seq 0 (num_subblocks d))) (seq 0 n);
  part_sum : list_sum (map (fun sb => val (subblock_size d n sb)) (seq 0 (num_subblocks d))) = n
}.
