(** C25 and C26: direct data access. *)
From Coq Require Import ZArith List Lia Bool.
From Verif Require Import Base Domain Traversal Layout LayoutProofs Views Dda DdaProofs.
Import ListNotations.
Open Scope Z_scope.

Ltac fitsmall := intros d Hd; cbn [length] in Hd; destruct d as [|[|d]]; [reflexivity|try reflexivity; lia|lia].
Ltac possmall := repeat first [apply Forall_nil | apply Forall_cons; [split; [vm_compute; discriminate|reflexivity]|]].

(** Whatever the user's code does through the pointer, in the block or in
    a temporary: what it reads is the block's content (if the policy has
    [in]) updated by its own writes; with [out] the block's elements end as
    written; no cell outside the block changes; without [out] the block
    does not change if the code does not write (or works on a copy). *)
Theorem C25_sync_policy {V} P check v w (m b : mem V) l :
  wf v -> no_repeat v -> window_ok v w b -> allocated m (total_size (root_layout v)) ->
  Forall (op_in (sizes v)) l ->
  exists n, forall fuel, (n <= fuel)%nat -> exists m' rs, session fuel P check v w m b l = Some (m', rs) /\
    let seen := if p_in P then get v m else fun _ => None in
    Forall2 agrees (reads seen l) rs /\
    (p_out P = true -> forall i x, in_range (sizes v) i -> after seen l i = Some x -> get v m' i = Some x) /\
    rest_same v m m' /\
    (p_out P = false -> (w <> InBlock \/ Forall (fun o => writes o = false) l) -> m' = m).
Proof. exact (session_lemma P check v w m b l). Qed.

(** With [inout] no program can tell a direct access from a copy, nor one
    temporary layout from another. *)
Theorem C25_direct_or_copy_unobservable {V} c c' v w w' (m b b' : mem V) l :
  wf v -> no_repeat v -> window_ok v w b -> window_ok v w' b' ->
  allocated m (total_size (root_layout v)) -> Forall (op_in (sizes v)) l ->
  exists n, forall fuel, (n <= fuel)%nat -> exists m1 m2 rs,
    session fuel {| p_in := true; p_out := true |} c v w m b l = Some (m1, rs) /\
    session fuel {| p_in := true; p_out := true |} c' v w' m b' l = Some (m2, rs) /\
    (forall i, in_range (sizes v) i -> get v m1 i = get v m2 i) /\ rest_same v m m1 /\ rest_same v m m2.
Proof. exact (two_windows c c' v w w' m b b' l). Qed.

(** With [out] alone it is observable: the elements the code does not write
    keep their values in a direct access, and become whatever the temporary
    held in a copy; in a maybe-direct access this happens even if the code
    never asks for the pointer. *)
Theorem C25_out_copy_observable_refuted : exists v l (m b m1 m2 : mem Z) i fuel, wf v /\ stored (sizes v) l /\ in_range (sizes v) i /\
  session fuel {| p_in := false; p_out := true |} false v InBlock m b [] = Some (m1, []) /\
  session fuel {| p_in := false; p_out := true |} false v (InBuffer l) m b [] = Some (m2, []) /\
  get v m1 i = get v m i /\ get v m2 i <> get v m i.
Proof.
  exists (Root [2] (A1 2 1)), (A1 2 1), (fun _ => Some 5), (fun _ => Some 9). eexists _, _, [1], 10%nat.
  assert (S : stored [2] (A1 2 1)).
  { split; [possmall|]. left. exists [0%nat], P_dense. split; [reflexivity|].
    fitsmall. }
  split; [exact S|]. split; [exact S|]. split; [repeat constructor; lia|].
  split; [reflexivity|]. split; [reflexivity|]. split; [reflexivity|]. vm_compute. congruence.
Qed.

(** A non-trivial session: the transposed sub-matrix of a 3x4 matrix,
    through a dense temporary and directly. *)
Definition ex_view : view := Transposed (Subset [mkdom 0 2 2; mkdom 1 1 3] (Root [3; 4] (A2row 3 4))).
Example C25_example :
  let m := fun a : Z => if (0 <=? a) && (a <? 12) then Some (100 + a) else None in
  let b := fun a : Z => if (0 <=? a) && (a <? 6) then Some 0 else None in
  let prog := [PRead [2;1]; PWrite [0;1] 7; PRead [0;1]; SyncOut; PWrite [2;0] 8] in
  let run w := match session 20 {| p_in := true; p_out := true |} true ex_view w m b prog with
    | Some (m', rs) => Some (rs, map m' (map Z.of_nat (seq 0 12))) | None => None end in
  run InBlock = run (InBuffer (A2col 3 2)) /\ run InBlock = run (InBuffer (A2row 3 2)) /\
  option_map fst (run InBlock) = Some [111; 7].
Proof. vm_compute. auto. Qed.

(** Whatever window the library opens for a request, base address and
    strides are as the requested order and packing promise.  The alignment
    of allocations is a hypothesis. *)
Theorem C26_window_has_requested_layout rq o0 p0 v copy base bb elem w :
  wf v -> make_layout o0 p0 (root_ext v) = Some (root_layout v) ->
  Forall (fun n => 0 <= n < H64) (root_ext v) -> fold_right Z.mul 1 (sizes v) < H64 ->
  (forall A, r_packing rq = P_aligned A -> is_aligned_enum A = true /\ bb mod A = 0 /\ (p0 = P_aligned A -> base mod A = 0)) ->
  open_window rq o0 p0 v copy base elem = Some w ->
  promise (match r_order rq with Some ro => ro | None => fst (type_layout o0 p0 v) end) (r_packing rq) (sizes v) (wstride v w)
    (match w with InBlock => base + ptr v * elem | InBuffer _ => bb end) elem.
Proof. exact (open_promise rq o0 p0 v copy base bb elem w). Qed.

(** The run-time test alone, for any sizes and strides a block reports. *)
Theorem C26_is_compatible_sound rq ro o ext size st base elem : r_order rq = Some ro ->
  order_valid (length ext) o = true -> (forall d, (d < length ext)%nat -> size d = at_ ext d) ->
  Forall (fun n => 0 <= n < H64) ext -> fold_right Z.mul 1 ext < H64 ->
  (forall A, r_packing rq = P_aligned A -> is_aligned_enum A = true) ->
  is_compatible rq o (length ext) size st base elem = true ->
  o = ro /\ promise ro (r_packing rq) ext st base elem.
Proof. exact (is_compatible_sound rq ro o ext size st base elem). Qed.

(** What the type of a block claims about its strides is true. *)
Theorem C26_type_layout_sound o0 p0 v : wf v -> make_layout o0 p0 (root_ext v) = Some (root_layout v) ->
  is_unit (snd (type_layout o0 p0 v)) = true -> vstride v (last (fst (type_layout o0 p0 v)) 0%nat) = 1.
Proof. intros W H. exact (proj1 (proj2 (type_layout_sound o0 p0 v W H))). Qed.

(** Without the hypothesis on allocation: a block declared aligned but
    placed on unaligned user storage is handed out directly, and a
    temporary allocated at the default 32 bytes is not 64-byte aligned. *)
Theorem C26_alignment_of_storage_refuted : exists rq o0 p0 v copy base bb elem w,
  wf v /\ make_layout o0 p0 (root_ext v) = Some (root_layout v) /\ bb mod 32 = 0 /\
  open_window rq o0 p0 v copy base elem = Some w /\
  ~ promise [0%nat; 1%nat] (r_packing rq) (sizes v) (wstride v w) (match w with InBlock => base + ptr v * elem | InBuffer _ => bb end) elem.
Proof.
  exists {| r_order := Some [0;1]%nat; r_packing := P_aligned 64 |}, [0;1]%nat, P_dense, (Root [2;3] (A2row 2 3)), true, 0, 32, 8. eexists.
  split. { split; [possmall|]. left. exists [0;1]%nat, P_dense. split; [reflexivity|]. fitsmall. }
  split; [reflexivity|]. split; [reflexivity|]. split; [reflexivity|].
  intros [_ H]. specialize (H [0;0]). vm_compute in H. assert (C : 32 = 0); [|discriminate]. apply H; [|reflexivity].
  repeat constructor; discriminate.
Qed.
Theorem C26_user_storage_alignment_refuted : exists rq v base elem,
  wf v /\ make_layout [0;1]%nat (P_aligned 64) (root_ext v) = Some (root_layout v) /\
  open_window rq [0;1]%nat (P_aligned 64) v false base elem = Some InBlock /\
  ~ promise [0%nat; 1%nat] (r_packing rq) (sizes v) (wstride v InBlock) (base + ptr v * elem) elem.
Proof.
  exists {| r_order := Some [0;1]%nat; r_packing := P_aligned 64 |}, (Root [2;3] (A2rowA 2 3 64)), 8, 8.
  split. { split; [possmall|]. left. exists [0;1]%nat, (P_aligned 64). split; [reflexivity|]. fitsmall. }
  split; [reflexivity|]. split; [reflexivity|].
  intros [_ H]. specialize (H [0;0]). vm_compute in H. assert (C : 8 = 0); [|discriminate]. apply H; [|reflexivity].
  repeat constructor; discriminate.
Qed.

(** Both outcomes happen: a row of a dense matrix is handed out directly, a
    column is copied, a whole-row sub-matrix passes the run-time test. *)
Example C26_example :
  let dense := {| r_order := Some [0%nat]; r_packing := P_dense |} in
  let rowm := {| r_order := Some [0;1]%nat; r_packing := P_dense |} in
  let M := Root [3;4] (A2row 3 4) in
  open_window dense [0;1]%nat P_dense (Sliced 0 1 M) false 0 8 = Some InBlock /\
  open_window dense [0;1]%nat P_dense (Sliced 1 1 M) false 0 8 = Some (InBuffer (A1 3 1)) /\
  open_window rowm [0;1]%nat P_dense (Subset [mkdom 1 1 2; mkdom 0 1 4] M) false 0 8 = Some InBlock /\
  open_window rowm [0;1]%nat P_dense (Subset [mkdom 1 1 2; mkdom 0 1 3] M) false 0 8 = Some (InBuffer (A2row 2 3)).
Proof. vm_compute. auto. Qed.

Print Assumptions C25_sync_policy.
Print Assumptions C25_direct_or_copy_unobservable.
Print Assumptions C25_out_copy_observable_refuted.
Print Assumptions C26_window_has_requested_layout.
Print Assumptions C26_is_compatible_sound.
Print Assumptions C26_type_layout_sound.
Print Assumptions C26_alignment_of_storage_refuted.
Print Assumptions C26_user_storage_alignment_refuted.
