(** * C66: serialization descriptors *)
From Coq Require Import ZArith List Lia Bool Arith.
From Verif Require Import Base Layout Serial SerialProofs.
Import ListNotations.
Local Open Scope Z_scope.

(** Among the types the library knows, a reader takes a descriptor of the
    right dimension only if it was written for its own element type, and then
    the type test always passes. *)
Theorem C66_type_match : forall (t t' : vtype) (D : nat) (d : descriptor), builtin t -> builtin t' ->
  d_type d = type_code t' -> d_dims d = Z.of_nat D -> (type_check t D d = true <-> t = t').
Proof. intros t t' D d B B' E Ed. split; [exact (code_match t t' D d B B' E)|]. intros ->. exact (code_self t' D d B' E Ed). Qed.
Example C66_type_match_ex : map (fun t => type_check t 1 {| d_type := type_code (TInt 4 true); d_dims := 1; d_format := 1; d_size := [3;0;0]; d_stride := [1;0;0]; d_storage := 3 |})
   [TBool; TFloat; TInt 4 false; TInt 4 true; TInt 8 true] = [false; false; false; true; false].
Proof. reflexivity. Qed.

(** A dense block of dimension order [o] that is compatible with a descriptor,
    bound to the described memory with the described sizes, finds every element
    where the descriptor says it is.  Missing: for integer element types the
    dimension is not tested, and for tensors the middle stride is not. *)
Theorem C66_compatible_reads_partial : forall (t : vtype) (D : nat) (o : order) (d : descriptor), order_valid D o = true -> wf_desc D d ->
  (D = 3%nat -> at_ (d_stride d) (dim_ o 1) = at_ (d_size d) (dim_ o 2) /\ at_ (d_size d) (dim_ o 2) * at_ (d_size d) (dim_ o 1) < W64) ->
  is_compatible t D o d = true -> reads_described D o d.
Proof. intros t D o d V W X C. apply andb_true_iff in C. destruct C as [_ C]. exact (reads_ok D o d V W C X). Qed.
Definition d234 : descriptor := {| d_type := 4; d_dims := 3; d_format := 1; d_size := [2;3;4]; d_stride := [12;4;1]; d_storage := 24 |}.
Example C66_compatible_ex : wf_desc 3 d234 /\ is_compatible TFloat 3 [0;1;2]%nat d234 = true /\ described d234 [1;2;3] = 23.
Proof. repeat split; try reflexivity; repeat constructor; cbv; intros; discriminate. Qed.

(** Apart from integers, the dimension of a compatible descriptor is that of
    the reader. *)
Theorem C66_dimension : forall (t : vtype) (D : nat) (o : order) (d : descriptor), is_integral (type_code t) = false ->
  is_compatible t D o d = true -> d_dims d = Z.of_nat D.
Proof. intros t D o d I C. apply andb_true_iff in C. exact (not_integral_dims t D d I (proj1 C)). Qed.
Example C66_dimension_ex : is_compatible TFloat 2 [0;1]%nat d234 = false.
Proof. reflexivity. Qed.

(** Describing a dense block of one to three dimensions in any dimension order,
    then reading it back: a block of the same type and order accepts it, gets the same
    sizes and format, and has every element where the writer had it, inside the
    storage size.  Any other dense block of that dimension that accepts it has
    the same element type and also reads every element from the writer's place. *)
Theorem C66_round_trip : forall (t : vtype) (fmt : Z) (o : order) (ext : list Z) (l : applied) (d : descriptor) (o' : order),
  builtin t -> order_valid (length ext) o = true -> make_layout o P_dense ext = Some l -> fits63 l ext ->
  describe_user_storage t fmt o P_dense ext = Some d ->
  is_compatible t (length ext) o d = true /\ sizes_of (length ext) d = ext /\ d_format d = fmt /\
  (forall i, in_range ext i -> index l i = Some (described d i) /\ 0 <= described d i < d_storage d) /\
  (order_valid (length ext) o' = true -> forall t', builtin t' -> is_compatible t' (length ext) o' d = true ->
     t' = t /\ exists l', make_layout o' P_dense ext = Some l' /\ forall i, in_range ext i -> index l' i = index l i).
Proof. exact user_round_trip. Qed.
Example C66_round_trip_ex : exists l d, make_layout [2;0;1]%nat P_dense [2;3;4] = Some l /\ fits63 l [2;3;4] /\
  describe_user_storage TDouble array [2;0;1]%nat P_dense [2;3;4] = Some d /\ is_compatible TDouble 3 [2;0;1]%nat d = true /\
  is_compatible TDouble 3 [0;1;2]%nat d = false /\ described d [1;2;3] = 23 /\ described d [1;0;0] = 3.
Proof. eexists. eexists. split; [reflexivity|]. split; [|repeat split; reflexivity]. split; [repeat constructor; cbv; congruence|]. split; [|reflexivity]. intros [|[|[|k]]] H; reflexivity. Qed.

(** The storage size given for user storage: the number of elements of the
    block, and twice as much (the number of reals) for complex formats. *)
Theorem C66_storage_size : forall (t : vtype) (fmt : Z) (o : order) (p : packing) (ext : list Z) (d : descriptor),
  describe_user_storage t fmt o p ext = Some d -> d_storage d = if fmt =? array then fold_right Z.mul 1 ext else 2 * fold_right Z.mul 1 ext.
Proof. exact user_storage_size. Qed.
Example C66_storage_size_ex : forall d, describe_user_storage TCFloat split_complex [0;1]%nat P_dense [7;9] = Some d -> d_storage d = 126.
Proof. intros d H. injection H as <-. reflexivity. Qed.

(** Describing data obtained by direct access: the descriptor gives the type,
    dimension, sizes and storage size of the data, and places every element by
    the strides of the data, whatever the descriptor held before. *)
Theorem C66_describe_data : forall (t : vtype) (fmt : Z) (sizes strides : list Z) (sto : Z) (old : descriptor),
  length (d_size old) = 3%nat -> length (d_stride old) = 3%nat -> (1 <= length sizes <= 3)%nat -> length strides = length sizes ->
  let d := describe_data t fmt sizes strides sto old in
  d_type d = type_code t /\ d_dims d = Z.of_nat (length sizes) /\ d_format d = fmt /\ d_storage d = sto /\ sizes_of (length sizes) d = sizes /\
  forall i, length i = length sizes -> described d i = dot_strides (at_ strides) 0 i.
Proof.
  intros t fmt sizes strides sto old L1 L2 L3 L4 d. destruct (data_fields t fmt sizes strides sto old L1 L2 L3 L4) as (A & B & C & D & _).
  repeat split; try assumption. intros i Li. exact (data_described t fmt sizes strides sto old i L1 L2 L3 L4 Li).
Qed.
Example C66_describe_data_ex : let d := describe_data TFloat array [2;3] [1;2] 6 d234 in d_size d = [2;3;4] /\ described d [1;2] = 5 /\
  is_compatible TFloat 2 [1;0]%nat d = true /\ is_compatible TFloat 2 [0;1]%nat d = false.
Proof. repeat split; reflexivity. Qed.

(** Describing a dense block through direct access: its storage size is its number of elements,
    and every element is where the block has it, inside the storage size. *)
Theorem C66_describe_direct : forall (t : vtype) (fmt : Z) (o : order) (ext : list Z) (l : applied) (old : descriptor),
  length (d_size old) = 3%nat -> length (d_stride old) = 3%nat ->
  order_valid (length ext) o = true -> make_layout o P_dense ext = Some l ->
  let d := describe_direct t fmt ext (map (stride l) (seq 0 (length ext))) old in
  d_type d = type_code t /\ d_format d = fmt /\ sizes_of (length ext) d = ext /\ d_storage d = fold_right Z.mul 1 ext /\
  forall i, in_range ext i -> index l i = Some (described d i) /\ 0 <= described d i < d_storage d.
Proof. exact direct_dense. Qed.
Example C66_describe_direct_ex : exists l, make_layout [1;0]%nat P_dense [3;4] = Some l /\
  let d := describe_direct TFloat array [3;4] (map (stride l) (seq 0 2)) d234 in d_storage d = 12 /\ described d [2;3] = 11 /\ described d [1;0] = 1.
Proof. eexists. split; [reflexivity|]. repeat split; reflexivity. Qed.

(** The test of a tensor descriptor compares the largest stride with the
    product of the two smaller sizes but never looks at the middle stride: the
    descriptor of a sub-tensor seen with two dimensions exchanged is accepted
    although its elements are elsewhere. *)
Theorem C66_tensor_stride_refuted : exists (d : descriptor), wf_desc 3 d /\ sizes_of 3 d = [3;2;2] /\
  is_compatible TFloat 3 [0;1;2]%nat d = true /\ ~ reads_described 3 [0;1;2]%nat d.
Proof.
  exists {| d_type := 4; d_dims := 3; d_format := 1; d_size := [3;2;2]; d_stride := [4;12;1]; d_storage := 12 |}.
  split; [repeat split; try reflexivity; repeat constructor; cbv; intros; discriminate|]. split; [reflexivity|]. split; [reflexivity|].
  intros (l & M & R). cbn in M. injection M as <-. specialize (R [0;1;0]). cbn in R. discriminate R. repeat constructor; lia.
Qed.
(** For integer element types the dimension is not compared: the descriptor of
    an integer matrix is accepted by a block of three dimensions. *)
Theorem C66_integer_dimension_refuted : exists (d : descriptor), describe_user_storage (TInt 4 false) array [0;1]%nat P_dense [2;3] = Some d /\
  is_compatible (TInt 4 false) 3 [0;1;2]%nat d = true.
Proof. eexists. split; reflexivity. Qed.
(** Codes from 0x10000 on are for user types, but the code with bit 8 set is
    taken for an integer type: two different user types whose codes agree in
    bit 9 and above bit 9 are taken for one another. *)
Theorem C66_user_code_refuted : exists (c c' : Z) (d : descriptor), 0x10000 <= c /\ 0x10000 <= c' /\ c <> c' /\
  describe_user_storage (TUser c') array [0]%nat P_dense [5] = Some d /\ is_compatible (TUser c) 1 [0]%nat d = true.
Proof. exists 0x10100, 0x10101. eexists. repeat split; try reflexivity; discriminate. Qed.
(** The storage size for data accessed in place is the number of elements, not
    the extent of memory: the last element of a sub-matrix lies outside. *)
Theorem C66_view_storage_refuted : exists (d : descriptor), d = describe_direct TFloat array [2;2] [4;1] d234 /\
  exists i, in_range [2;2] i /\ d_storage d <= described d i.
Proof. eexists. split; [reflexivity|]. exists [1;1]. split; [repeat constructor; lia|]. cbn. lia. Qed.
(** The storage size for user storage of a block with aligned rows leaves out
    the padding: the last row lies outside. *)
Theorem C66_aligned_storage_refuted : exists (d : descriptor), describe_user_storage TFloat array [0;1]%nat (P_aligned 16) [2;3] = Some d /\
  exists i, in_range [2;3] i /\ d_storage d <= described d i.
Proof. eexists. split; [reflexivity|]. exists [1;0]. split; [repeat constructor; lia|]. cbn. lia. Qed.
(** The same complex data is given two storage sizes: describing its user storage counts
    reals, describing its data counts complex elements. *)
Theorem C66_complex_storage_refuted : exists (d d' : descriptor), describe_user_storage TCFloat split_complex [0;1]%nat P_dense [7;9] = Some d /\
  d' = describe_direct TCFloat split_complex [7;9] [9;1] d234 /\ d_format d = d_format d' /\ d_storage d <> d_storage d'.
Proof. eexists. eexists. split; [reflexivity|]. split; [reflexivity|]. split; [reflexivity|]. discriminate. Qed.

Print Assumptions C66_type_match.
Print Assumptions C66_compatible_reads_partial.
Print Assumptions C66_dimension.
Print Assumptions C66_round_trip.
Print Assumptions C66_storage_size.
Print Assumptions C66_describe_data.
Print Assumptions C66_describe_direct.
Print Assumptions C66_tensor_stride_refuted.
Print Assumptions C66_integer_dimension_refuted.
Print Assumptions C66_user_code_refuted.
Print Assumptions C66_view_storage_refuted.
Print Assumptions C66_aligned_storage_refuted.
Print Assumptions C66_complex_storage_refuted.
