(** Property theorems C57 (sub-views of distributed views) and C58
    (slices of distributed views). *)
From Coq Require Import ZArith List Arith Lia Bool.
From Verif Require Import Base Dist Traversal Map Domain SubMap SubMapProofs SliceProofs.
Import ListNotations.
Local Open Scope nat_scope.

(** ** C57 *)

(** A sub-view of a view whose map is block-distributed or whole in every
    dimension: each element [k] of the sub-view lies in exactly one
    subblock of the sub-view's map; and element [j] of the local view of
    that subblock is sub-view element (global patch, [j]), stored on the
    same processor and at the same place of the parent's local block as
    the parent's element it names.  [placed] (Map.v) says where the
    parent keeps an element. *)
Theorem C57_subview_placement :
  forall u lens m dm, built u -> no_cyclic u -> apply_map u lens = Some m -> sub_of lens dm ->
  exists sm, subset_map m (u_pvec u) dm = Some sm /\
   (forall k, posD dm k -> exists i e, nth_error sm i = Some e /\ indomD (se_gd e) k /\
      forall i' e', nth_error sm i' = Some e' -> indomD (se_gd e') k -> i' = i) /\
   (forall i e, nth_error sm i = Some e -> exists L,
      local_from_global_domain m (se_parent e) dm = Some L /\
      map dlen L = map dlen (se_gd e) /\ map dlen (se_ld e) = map dlen (se_gd e) /\
      forall j, posD (se_gd e) j -> idxD (se_ld e) j = j /\ posD dm (idxD (se_gd e) j) /\
        exists g l, map Z.of_nat g = idxD dm (idxD (se_gd e) j) /\ map Z.of_nat l = idxD L j /\
          placed u lens g (se_proc e) l).
Proof. exact subview_lemma. Qed.
Print Assumptions C57_subview_placement.

(** Distinct processors: subblock(pr) and the processor of a subblock
    agree; the local view of a processor is the part above, and it is
    empty on the processors that hold nothing of the sub-view. *)
Theorem C57_subview_local :
  forall u lens m dm sm, built u -> no_cyclic u -> apply_map u lens = Some m -> sub_of lens dm ->
  subset_map m (u_pvec u) dm = Some sm -> NoDup (u_pvec u) ->
  (forall pr i, sub_subblock sm pr = Some i <-> exists e, nth_error sm i = Some e /\ se_proc e = pr) /\
  (forall i e, nth_error sm i = Some e ->
     subset_local_domain m sm dm (se_proc e) = local_from_global_domain m (se_parent e) dm) /\
  (forall pr, (forall e, In e sm -> se_proc e <> pr) ->
     subset_local_domain m sm dm pr = Some (map (fun _ => mkdom 0 1 0) dm)).
Proof. exact sub_owner_lemma. Qed.
Print Assumptions C57_subview_local.

(** A sub-view of a sub-view: again every element has exactly one
    subblock, on the processor that stores the element. *)
Theorem C57_subview_of_subview :
  forall u lens m dm dm2 sm, built u -> no_cyclic u -> apply_map u lens = Some m -> sub_of lens dm ->
  sub_of (map Z.to_nat (map dlen dm)) dm2 ->
  subset_map m (u_pvec u) dm = Some sm ->
  exists sm2, subset_map2 sm dm2 = Some sm2 /\
   (forall k, posD dm2 k -> exists i e, nth_error sm2 i = Some e /\ indomD (se_gd e) k /\
      (forall i' e', nth_error sm2 i' = Some e' -> indomD (se_gd e') k -> i' = i) /\
      exists g l, map Z.of_nat g = idxD dm (idxD dm2 k) /\ placed u lens g (se_proc e) l) /\
   (forall i e k, nth_error sm2 i = Some e -> indomD (se_gd e) k -> posD dm2 k).
Proof. exact sub_sub_lemma. Qed.
Print Assumptions C57_subview_of_subview.

Definition exu : umap := {| u_d := [Block 2; Block 2; Whole]; u_pvec := [3; 7; 4; 9] |}.
Example C57_example :
  built exu /\ no_cyclic exu /\ NoDup (u_pvec exu) /\ apply_map exu [8; 3] = Some [(Block 2, 8); (Block 2, 3)] /\
  sub_of [8; 3] [mkdom 1 2 3; mkdom 0 1 2] /\ sub_of (map Z.to_nat [3; 2]%Z) [mkdom 1 1 2; mkdom 1 1 1] /\
  subset_map [(Block 2, 8); (Block 2, 3)] [3; 7; 4; 9] [mkdom 1 2 3; mkdom 0 1 2] =
    Some [mksub [mkdom 0 1 2; mkdom 0 1 2] [mkdom 0 1 2; mkdom 0 1 2] [4; 2]%Z 3 0;
          mksub [mkdom 2 1 1; mkdom 0 1 2] [mkdom 0 1 1; mkdom 0 1 2] [4; 2]%Z 4 2] /\
  local_from_global_domain [(Block 2, 8); (Block 2, 3)] 2 [mkdom 1 2 3; mkdom 0 1 2] = Some [mkdom 1 2 1; mkdom 0 1 2] /\
  placed exu [8; 3] [5; 1] 4 [1; 1].
Proof.
  split; [split; [repeat constructor|reflexivity]|].
  split; [repeat constructor; discriminate|].
  split; [repeat constructor; cbn; lia|]. split; [reflexivity|].
  split. { repeat constructor; cbn; try lia; intros x (i & Hi & ->); unfold idx; cbn [dfirst dstride dlen] in *; lia. }
  split. { repeat constructor; cbn; try lia; intros x (i & Hi & ->); unfold idx; cbn [dfirst dstride dlen] in *; lia. }
  split; [vm_compute; reflexivity|]. split; [vm_compute; reflexivity|].
  exists [(Block 2, 8); (Block 2, 3)], 2, [4]. repeat split; left; reflexivity.
Qed.

(** Finding: the size a subset map reports for a subblock
    (subblock_domain(view, sb)) is the parent's subblock size, not the
    size of the part of the sub-view that is there
    (subset_map_decl.hpp 257-259). *)
Theorem C57_subblock_domain_refuted :
  exists u lens m dm sm sb e D, built u /\ no_cyclic u /\ apply_map u lens = Some m /\ sub_of lens dm /\
    subset_map m (u_pvec u) dm = Some sm /\ nth_error sm sb = Some e /\
    sub_subblock_domain sm sb = Some D /\ D = map (fun n => mkdom 0 1 (Z.of_nat n)) [4] /\
    map dlen D <> map dlen (se_gd e).
Proof.
  exists {| u_d := [Block 2; Whole; Whole]; u_pvec := [3; 7] |}, [8], [(Block 2, 8)], [mkdom 1 2 3].
  eexists _, 1, _, _. split; [split; [repeat constructor|reflexivity]|]. split; [repeat constructor; discriminate|].
  split; [reflexivity|]. split.
  { repeat constructor; cbn; try lia; intros x (i & Hi & ->); unfold idx; cbn [dfirst dstride dlen] in *; lia. }
  split; [vm_compute; reflexivity|]. split; [reflexivity|]. split; [vm_compute; reflexivity|]. split; [reflexivity|]. vm_compute. discriminate.
Qed.
Print Assumptions C57_subblock_domain_refuted.

(** Finding: a sub-view with a negative stride (a reversed view) of a
    distributed vector gets a map without any subblock, because intersect
    converts the stride to unsigned: every element is lost, and an
    assignment from or to it moves nothing. *)
Theorem C57_reversed_subview_refuted :
  exists u lens m d, built u /\ no_cyclic u /\ apply_map u lens = Some m /\ dom_ok d /\ dlen d = 8%Z /\
    (forall x, indom d x -> (x < 8)%Z) /\ lens = [8] /\ subset_map m (u_pvec u) [d] = Some [].
Proof.
  exists {| u_d := [Block 2; Whole; Whole]; u_pvec := [3; 7] |}, [8], [(Block 2, 8)], (mkdom 7 (-1) 8).
  split; [split; [repeat constructor|reflexivity]|]. split; [repeat constructor; discriminate|].
  split; [reflexivity|]. split; [vm_compute; repeat split; congruence|]. split; [reflexivity|].
  split; [intros x (i & Hi & ->); unfold idx; cbn [dfirst dstride dlen] in *; lia|].
  split; [reflexivity|]. vm_compute. reflexivity.
Qed.
Print Assumptions C57_reversed_subview_refuted.

(** Finding: an empty sub-view starting at index 0 gets a map that claims
    every element of the parent (the last index of an empty domain wraps
    around in intersect). *)
Theorem C57_empty_subview_refuted :
  exists u lens m d sm, built u /\ no_cyclic u /\ apply_map u lens = Some m /\ make 0 1 0 = Some d /\
    subset_map m (u_pvec u) [d] = Some sm /\ (forall k, ~ posD [d] k) /\
    exists e, In e sm /\ indomD (se_gd e) [6%Z].
Proof.
  exists {| u_d := [Block 2; Whole; Whole]; u_pvec := [3; 7] |}, [8], [(Block 2, 8)], (mkdom 0 1 0).
  eexists. split; [split; [repeat constructor|reflexivity]|]. split; [repeat constructor; discriminate|].
  split; [reflexivity|]. split; [reflexivity|]. split; [vm_compute; reflexivity|]. split.
  - intros k H. inversion H as [|? x ? y Hx]. cbn in Hx. lia.
  - eexists. split; [right; left; reflexivity|]. cbn [se_gd]. constructor; [|constructor].
    exists 2%Z. vm_compute. repeat split; congruence.
Qed.
Print Assumptions C57_empty_subview_refuted.

(** ** C58 *)

(** Fixing the index [idx] in dimension [D] of a distributed matrix or
    tensor (any mix of distributions): the slice's map stores each
    element of the slice on the same processor as the parent does, at the
    parent's local index without dimension [D]; the parent subblock of a
    slice subblock is the one holding the same elements; and the local
    part of the slice cuts the parent's local block at the right local
    index. *)
Theorem C58_slice_placement :
  forall D u lens m n idx, built u -> length (u_d u) = 3 -> apply_map u lens = Some m ->
  2 <= length lens -> nth_error lens D = Some n -> idx < n ->
  exists u' m' li, project1 D u lens idx = Some u' /\ built u' /\ length (u_d u') = 3 /\
    apply_map u' (remove_at D lens) = Some m' /\
    (forall g pr l, in_range (remove_at D lens) g ->
       (placed u' (remove_at D lens) g pr l <-> placed u lens (insert_at D idx g) pr (insert_at D li l))) /\
    (forall g, in_range (remove_at D lens) g -> exists sb' sb,
       map_subblock_from_global_index m' g = Some sb' /\ parent_subblock1 D u lens idx sb' = Some sb /\
       map_subblock_from_global_index m (insert_at D idx g) = Some sb) /\
    (forall pr, In pr (u_pvec u') -> slice_local_index D u u' lens idx pr = Some (Some li)) /\
    (forall pr, ~ In pr (u_pvec u') -> slice_local_index D u u' lens idx pr = Some None).
Proof. exact slice_lemma. Qed.
Print Assumptions C58_slice_placement.

(** Fixing two indices of a distributed tensor. *)
Theorem C58_line_placement :
  forall D1 D2 u n0 n1 n2 i1 i2 a1 a2, built u -> length (u_d u) = 3 -> D1 < D2 ->
  nth_error [n0; n1; n2] D1 = Some a1 -> nth_error [n0; n1; n2] D2 = Some a2 -> i1 < a1 -> i2 < a2 ->
  exists D3 n3, nth_error [n0; n1; n2] D3 = Some n3 /\ D3 <> D1 /\ D3 <> D2 /\
  exists u' li1 li2 d, project2 D1 D2 u [n0; n1; n2] i1 i2 = Some u' /\ built u' /\ length (u_d u') = 3 /\
    nth_error (u_d u) D3 = Some d /\ apply_map u' [n3] = Some [(d, n3)] /\
    (forall g pr l, g < n3 ->
       (placed u' [n3] [g] pr [l] <->
        placed u [n0; n1; n2] (insert_at D2 i2 (insert_at D1 i1 [g])) pr (insert_at D2 li2 (insert_at D1 li1 [l])))) /\
    (forall g, g < n3 -> exists sb' sb m,
       map_subblock_from_global_index [(d, n3)] [g] = Some sb' /\
       parent_subblock2 D1 D2 u [n0; n1; n2] i1 i2 sb' = Some sb /\
       apply_map u [n0; n1; n2] = Some m /\
       map_subblock_from_global_index m (insert_at D2 i2 (insert_at D1 i1 [g])) = Some sb).
Proof. exact slice2_lemma. Qed.
Print Assumptions C58_line_placement.

Definition ext3 : umap :=
  {| u_d := [Block 2; Block 3; Cyclic 2 1]; u_pvec := [10;11;12;13;14;15;16;17;18;19;20;21] |}.
Example C58_example :
  built ext3 /\ length (u_d ext3) = 3 /\
  apply_map ext3 [4; 6; 5] = Some [(Block 2, 4); (Block 3, 6); (Cyclic 2 1, 5)] /\
  project1 1 ext3 [4; 6; 5] 3 = Some {| u_d := [Block 2; Cyclic 2 1; Block 1]; u_pvec := [12; 13; 18; 19] |} /\
  placed {| u_d := [Block 2; Cyclic 2 1; Block 1]; u_pvec := [12; 13; 18; 19] |} [4; 5] [2; 3] 19 [0; 1] /\
  placed ext3 [4; 6; 5] (insert_at 1 3 [2; 3]) 19 (insert_at 1 1 [0; 1]) /\
  project2 0 2 ext3 [4; 6; 5] 3 1 = Some {| u_d := [Block 3; Block 1; Block 1]; u_pvec := [17; 19; 21] |}.
Proof.
  split; [split; [repeat constructor|reflexivity]|]. split; [reflexivity|]. split; [reflexivity|].
  split; [vm_compute; reflexivity|]. split.
  { exists [(Block 2, 4); (Cyclic 2 1, 5)], 3, [19]. repeat split; left; reflexivity. }
  split; [|vm_compute; reflexivity].
  exists [(Block 2, 4); (Block 3, 6); (Cyclic 2 1, 5)], 9, [19]. repeat split; left; reflexivity.
Qed.
