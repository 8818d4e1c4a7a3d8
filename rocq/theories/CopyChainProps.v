(** C17: copy chains. *)
From Coq Require Import List Arith ZArith Lia Bool.
From Verif Require Import Base CopyChain CopyChainProofs.
Import ListNotations.

(** Building: the recorded size is the number of bytes the chain names,
    add / append / append_offset extend the byte sequence as they say. *)
Theorem C17_build_size c : built c -> data_size c = length (bytes c).
Proof. exact (built_size c). Qed.
Theorem C17_build_bytes c d st es sd ln o :
  bytes empty_chain = [] /\
  bytes (add c st es sd ln) = bytes c ++ rec_bytes (mkrec st es sd ln) /\
  bytes (append c d) = bytes c ++ bytes d /\
  bytes (append_offset c o d) = bytes c ++ map (fun a => a + o)%Z (bytes d).
Proof. exact (bytes_builders c d st es sd ln o). Qed.

(** Gathering into a buffer: byte [k] of the buffer is the [k]-th byte of
    the chain, nothing outside the buffer changes. *)
Theorem C17_gather {V} (m : mem V) c dest : built c -> readable m (bytes c) -> readable m (area dest (data_size c)) ->
  disjoint (area dest (data_size c)) (bytes c) ->
  exists m', copy_into_buffer m c dest (data_size c) = Some m' /\
    (forall k a, nth_error (bytes c) k = Some a -> m' (dest + Z.of_nat k)%Z = m a) /\
    (forall x, ~ In x (area dest (data_size c)) -> m' x = m x).
Proof. exact (gather_lemma m c dest). Qed.

(** Copying one chain into another: the [k]-th byte of the destination
    chain becomes the [k]-th byte of the source chain, nothing else
    changes; however the two chains are cut into records. *)
Theorem C17_chain_to_chain {V} (m : mem V) c d es : 0 < es -> recs c <> [] ->
  Forall (fun r => esz r = es /\ 0 < len r) (recs c) -> Forall (fun r => esz r = es /\ 0 < len r) (recs d) ->
  length (bytes c) = length (bytes d) ->
  NoDup (bytes d) -> readable m (bytes c) -> readable m (bytes d) -> disjoint (bytes d) (bytes c) ->
  exists n m', (forall fuel, n <= fuel -> copy_into_chain fuel m c d = Some m') /\
    (forall k a b, nth_error (bytes c) k = Some a -> nth_error (bytes d) k = Some b -> m' b = m a) /\
    (forall x, ~ In x (bytes d) -> m' x = m x).
Proof. exact (chain_lemma m c d es). Qed.

(** Without the positive-length condition it fails: an empty record of
    non-unit stride makes the copy take one element from it anyway, and a
    pair of chains without records is dereferenced. *)
Theorem C17_empty_records_refuted :
  exists (m : mem nat) c d, built c /\ built d /\ recs c <> [] /\
    Forall (fun r => esz r = 1) (recs c) /\ Forall (fun r => esz r = 1) (recs d) /\
    length (bytes c) = length (bytes d) /\
    NoDup (bytes d) /\ (forall a, m a <> None) /\ disjoint (bytes d) (bytes c) /\
    forall fuel, copy_into_chain fuel m c d = None.
Proof.
  exists (fun _ => Some 0), (add (add empty_chain 0 1 2 0) 10 1 1 1), (add empty_chain 20 1 1 1).
  split; [repeat constructor|]. split; [repeat constructor|]. split; [discriminate|].
  split; [repeat constructor|]. split; [repeat constructor|]. split; [reflexivity|].
  split; [repeat constructor; intros []|]. split; [discriminate|].
  split. { intros x [<-|[]] [H|[]]. discriminate. }
  intros [|[|fuel]]; reflexivity.
Qed.
Theorem C17_no_records_refuted :
  forall (m : mem nat) fuel, data_size empty_chain = 0 /\ copy_into_chain fuel m empty_chain empty_chain = None.
Proof. split; reflexivity. Qed.

(** A strided source of 2-byte elements against two contiguous pieces. *)
Definition ex_src := add (add empty_chain 0 2 2 3) 40 2 1 2.
Definition ex_dst := append_offset (add empty_chain 100 2 1 4) 10 (add empty_chain 110 2 (-1) 1).
Example C17_ex_bytes : bytes ex_src = [0;1;4;5;8;9;40;41;42;43]%Z /\
  bytes ex_dst = [100;101;102;103;104;105;106;107;120;121]%Z /\ built ex_src /\ built ex_dst.
Proof. split; [reflexivity|]. split; [reflexivity|]. split; repeat constructor. Qed.
Example C17_ex_hyps : 0 < 2 /\ recs ex_src <> [] /\
  Forall (fun r => esz r = 2 /\ 0 < len r) (recs ex_src) /\ Forall (fun r => esz r = 2 /\ 0 < len r) (recs ex_dst) /\
  length (bytes ex_src) = length (bytes ex_dst) /\ NoDup (bytes ex_dst) /\ disjoint (bytes ex_dst) (bytes ex_src) /\
  disjoint (area 200 (data_size ex_src)) (bytes ex_src).
Proof.
  repeat split; try discriminate; repeat constructor; cbn; try lia.
  all: intros x H1 H2; cbn in H1, H2; lia.
Qed.
Example C17_ex_run : option_map (fun m => map m (bytes ex_dst)) (copy_into_chain 10 (fun a => Some a) ex_src ex_dst) =
  Some (map Some [0;1;4;5;8;9;40;41;42;43]%Z).
Proof. reflexivity. Qed.

Print Assumptions C17_build_size.
Print Assumptions C17_build_bytes.
Print Assumptions C17_gather.
Print Assumptions C17_chain_to_chain.
Print Assumptions C17_empty_records_refuted.
Print Assumptions C17_no_records_refuted.
