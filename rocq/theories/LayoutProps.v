(** Property theorems C06, C07, C08 and C46. *)
From Coq Require Import ZArith List Lia Bool.
From Verif Require Import Base Layout LayoutProofs.
Import ListNotations.
Open Scope Z_scope.

(** C06: every compile-time layout built from an extent. *)
Theorem C06_distinct_cells_inside_allocation :
  forall o p ext l, Forall (fun n => 0 <= n) ext -> make_layout o p ext = Some l ->
  fits l ext -> own_cells l ext.
Proof. exact make_layout_own. Qed.
Print Assumptions C06_distinct_cells_inside_allocation.

(** Dense layouts use every cell and have no other cell. *)
Theorem C06_dense_uses_every_cell :
  forall o ext l, Forall (fun n => 0 <= n) ext -> make_layout o P_dense ext = Some l ->
  all_cells_used l ext /\ total_size l = fold_right Z.mul 1 ext.
Proof. exact make_layout_dense_onto. Qed.
Print Assumptions C06_dense_uses_every_cell.

(** Run-time layouts: construction succeeds (no internal check fails)
    whenever the element size divides the requested alignment; without
    padding every cell is used. *)
Theorem C06_runtime_layout_distinct_cells :
  forall l ext elem,
  order_valid (length ext) (rt_order l) = true -> Forall (fun n => 0 <= n) ext -> 0 < elem ->
  0 <= rt_alignment l /\
  (is_aligned (rt_packing l) = true -> rt_alignment l <> 0 -> rt_alignment l mod elem = 0) ->
  exists a, make_rt l ext elem = Some a /\ own_cells a ext /\
    (is_aligned (rt_packing l) = false \/ rt_alignment l = 0 ->
       all_cells_used a ext /\ total_size a = fold_right Z.mul 1 ext).
Proof. exact make_rt_own. Qed.
Print Assumptions C06_runtime_layout_distinct_cells.

(** Finding: the two-argument constructor of the column-major aligned
    layout pads the wrong dimension; two elements share a cell. *)
Theorem C06_column_aligned_two_arg_ctor_refuted :
  exists n0 n1 l i j, make_layout2 [1;0]%nat (P_aligned 8) n0 n1 = Some l /\
    in_range [n0;n1] i /\ in_range [n0;n1] j /\ i <> j /\ index l i = index l j.
Proof.
  exists 20, 5. eexists. exists [8;0], [0;1]. repeat split; try (repeat constructor; lia); discriminate.
Qed.
Print Assumptions C06_column_aligned_two_arg_ctor_refuted.

(** The other two-argument constructors agree with the extent constructor. *)
Theorem C06_two_arg_ctor_agrees :
  forall o p n0 n1, (o = [0;1]%nat \/ p = P_dense) ->
  p = P_dense \/ (exists A, p = P_aligned A) ->
  make_layout2 o p n0 n1 = make_layout o p [n0;n1].
Proof. exact make_layout2_agrees. Qed.
Print Assumptions C06_two_arg_ctor_agrees.

(** Finding: an aligned matrix with no rows reports an allocation of
    almost 2^64 elements. *)
Theorem C06_empty_aligned_allocation_refuted :
  exists l, make_layout [0;1]%nat (P_aligned 16) [0;5] = Some l /\ total_size l = W64 - 11.
Proof. eexists; split; reflexivity. Qed.
Print Assumptions C06_empty_aligned_allocation_refuted.

Example C06_example :
  (exists l, make_layout [2;0;1]%nat (P_aligned 16) [3;5;4] = Some l /\ fits l [3;5;4] /\
     index l [2;4;3] = Some 180 /\ total_size l = 192) /\
  (exists a, make_rt {| rt_packing := 32; rt_order := [1;0]%nat; rt_alignment := 32 |} [5;7] 4
             = Some a /\ index a [4;6] = Some 52 /\ total_size a = 56).
Proof.
  split; eexists; repeat split.
  intros d Hd. destruct d as [|[|[|d]]]; [reflexivity..|simpl in Hd; lia].
Qed.

(** C07: compile-time aligned layouts. *)
Theorem C07_lines_aligned_and_padding_bounded :
  forall o A ext l, Forall (fun n => 0 <= n) ext -> is_aligned_enum A = true ->
  make_layout o (P_aligned A) ext = Some l ->
  (forall i a, in_range ext i -> at_ i (fast o) = 0 -> index l i = Some a -> a mod A = 0) /\
  ((2 <= length ext)%nat -> at_ ext (fast o) <= stride l (slower o) < at_ ext (fast o) + A).
Proof. exact make_layout_aligned. Qed.
Print Assumptions C07_lines_aligned_and_padding_bounded.

(** C07: run-time aligned layouts; alignment is in bytes. *)
Theorem C07_runtime_lines_aligned :
  forall l ext elem a i off,
  order_valid (length ext) (rt_order l) = true -> Forall (fun n => 0 <= n) ext -> 0 < elem ->
  0 <= rt_alignment l /\
  (is_aligned (rt_packing l) = true -> rt_alignment l <> 0 -> rt_alignment l mod elem = 0) ->
  is_aligned (rt_packing l) = true -> rt_alignment l <> 0 ->
  make_rt l ext elem = Some a -> in_range ext i -> at_ i (fast (rt_order l)) = 0 ->
  index a i = Some off ->
  (off * elem) mod rt_alignment l = 0.
Proof. exact make_rt_aligned. Qed.
Print Assumptions C07_runtime_lines_aligned.

Theorem C07_runtime_padding_bounded :
  forall l ext elem a,
  order_valid (length ext) (rt_order l) = true -> Forall (fun n => 0 <= n) ext -> 0 < elem ->
  0 <= rt_alignment l /\
  (is_aligned (rt_packing l) = true -> rt_alignment l <> 0 -> rt_alignment l mod elem = 0) ->
  is_aligned (rt_packing l) = true -> rt_alignment l <> 0 -> (2 <= length ext)%nat ->
  make_rt l ext elem = Some a ->
  at_ ext (fast (rt_order l)) <= stride a (slower (rt_order l)) /\
  (stride a (slower (rt_order l)) - at_ ext (fast (rt_order l))) * elem < rt_alignment l.
Proof. exact make_rt_padding. Qed.
Print Assumptions C07_runtime_padding_bounded.

(** Finding: the run-time description of an aligned_512 block carries
    alignment 0 (missing specialisation), so the lines are not aligned. *)
Theorem C07_aligned_512_runtime_refuted :
  exists a i off, make_rt (block_layout 512 [0;1]%nat) [2;3] 4 = Some a /\
    in_range [2;3] i /\ at_ i 1 = 0 /\ index a i = Some off /\ (off * 4) mod 512 <> 0.
Proof.
  eexists; exists [1;0]. eexists; repeat split; try (repeat constructor; lia). discriminate.
Qed.
Print Assumptions C07_aligned_512_runtime_refuted.

Example C07_example : exists l, make_layout [1;0]%nat (P_aligned 64) [70;3] = Some l /\
  index l [0;2] = Some 256 /\ stride l 1 = 128.
Proof. eexists; repeat split. Qed.

(** C08 *)
Theorem C08_offset_is_dot_product_of_strides :
  forall o p ext l i, make_layout o p ext = Some l -> in_range ext i ->
  index l i = Some (dot_strides (stride l) 0 i).
Proof. exact make_layout_index. Qed.
Print Assumptions C08_offset_is_dot_product_of_strides.

Theorem C08_runtime_offset_is_dot_product :
  forall l ext elem a i, order_valid (length ext) (rt_order l) = true ->
  Forall (fun n => 0 <= n) ext -> make_rt l ext elem = Some a -> in_range ext i ->
  index a i = Some (dot_strides (stride a) 0 i).
Proof. exact make_rt_index. Qed.
Print Assumptions C08_runtime_offset_is_dot_product.

(** Layouts with user-given strides (any_packing, and the run-time
    layout built from a domain of physical strides). *)
Theorem C08_user_strides_dot_product :
  (forall n t i, in_range [n] i -> index (A1 n t) i = Some (dot_strides (stride (A1 n t)) 0 i)) /\
  (forall n0 n1 t0 t1 i, in_range [n0;n1] i ->
     index (A2any n0 n1 t0 t1) i = Some (dot_strides (stride (A2any n0 n1 t0 t1)) 0 i)) /\
  (forall size st i, (1 <= length size <= 3)%nat -> length st = length size -> in_range size i ->
     index (make_rt_domain size st) i = Some (dot_strides (at_ st) 0 i)).
Proof. exact user_strides_index. Qed.
Print Assumptions C08_user_strides_dot_product.

Example C08_example : exists l, make_layout [1;2;0]%nat P_dense [3;5;4] = Some l /\
  index l [2;4;3] = Some (2 * 1 + 4 * 12 + 3 * 3) /\
  map (stride l) [0;1;2]%nat = [1;12;3].
Proof. eexists; repeat split. Qed.

(** C46: the run-time description of a block's layout, applied to the
    block's extent, addresses the block's elements. *)
Theorem C46_runtime_description_of_dense_layout :
  forall o ext elem l, Forall (fun n => 0 <= n) ext -> 0 < elem ->
  make_layout o P_dense ext = Some l ->
  exists a, make_rt (block_layout p_dense o) ext elem = Some a /\
    (forall i, in_range ext i -> index a i = index l i) /\
    (forall d, (d < length ext)%nat -> stride a d = stride l d).
Proof. exact block_layout_dense. Qed.
Print Assumptions C46_runtime_description_of_dense_layout.

Theorem C46_runtime_description_of_aligned_layout_partial :
  forall o ext A l, Forall (fun n => 0 <= n) ext -> A <> p_aligned_512 ->
  is_aligned_enum A = true ->
  make_layout o (P_aligned A) ext = Some l ->
  exists a, make_rt (block_layout A o) ext 1 = Some a /\
    (forall i, in_range ext i -> index a i = index l i) /\
    (forall d, (d < length ext)%nat -> stride a d = stride l d).
Proof. exact block_layout_aligned. Qed.
Print Assumptions C46_runtime_description_of_aligned_layout_partial.

(** Finding: the compile-time classes read the alignment in elements,
    the run-time class in bytes; the strides differ for elements larger
    than a byte. *)
Theorem C46_alignment_units_refuted :
  exists l a i, make_layout [0;1]%nat (P_aligned 16) [2;5] = Some l /\
    make_rt (block_layout 16 [0;1]%nat) [2;5] 4 = Some a /\
    in_range [2;5] i /\ index a i <> index l i.
Proof.
  eexists; eexists; exists [1;0]; repeat split; try (repeat constructor; lia). discriminate.
Qed.
Print Assumptions C46_alignment_units_refuted.

Example C46_example : exists l a, make_layout [1;0]%nat (P_aligned 8) [3;4] = Some l /\
  make_rt (block_layout 8 [1;0]%nat) [3;4] 1 = Some a /\ index a [2;3] = Some 26 /\ index l [2;3] = Some 26.
Proof. eexists; eexists; repeat split. Qed.
