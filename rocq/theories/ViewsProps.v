(** C19, C20 and C21: sub-views. *)
From Coq Require Import ZArith List Lia Bool.
From Verif Require Import Base Domain DomainProofs Layout LayoutProofs Views ViewsProofs.
Import ListNotations.
Open Scope Z_scope.

Ltac small1 := vm_compute; repeat lazymatch goal with
  | |- _ /\ _ => split
  | |- _ \/ _ => right
  | |- _ = _ -> False => discriminate
  | |- _ = _ => reflexivity
  | |- _ = _ -> _ => intros _
  end.
Ltac small := repeat lazymatch goal with
  | |- Forall _ (_ :: _) => apply Forall_cons; [small1|]
  | |- Forall _ [] => apply Forall_nil
  | |- Forall2 _ (_ :: _) _ => apply Forall2_cons; [small1|]
  | |- Forall2 _ [] _ => apply Forall2_nil
  | |- in_range _ _ => unfold in_range, sizes; cbn [dim seq map]
  end.

(** Every element of a view names exactly one element of the stored block. *)
Theorem C19_each_element_names_one v i : wf v -> in_range (sizes v) i -> exists r, forall r', names v i r' <-> r' = r.
Proof. exact (names_exists v i). Qed.

(** Reading through any nesting of views reads the named element. *)
Theorem C19_get_reads_named_element {V} v i r (m : mem V) : wf v -> in_range (sizes v) i -> names v i r ->
  in_range (root_ext v) r /\ get v m i = get (Root (root_ext v) (root_layout v)) m r.
Proof. exact (get_lemma v i r m). Qed.

(** Writing through any nesting of views changes exactly the named element. *)
Theorem C19_put_writes_named_element {V} v i r x (m : mem V) : wf v -> in_range (sizes v) i -> names v i r ->
  (forall a, 0 <= a < total_size (root_layout v) -> exists y, m a = Some y) ->
  exists m', put v m i x = Some m' /\
    get (Root (root_ext v) (root_layout v)) m' r = Some x /\
    (forall r', in_range (root_ext v) r' -> r' <> r ->
       get (Root (root_ext v) (root_layout v)) m' r' = get (Root (root_ext v) (root_layout v)) m r') /\
    (forall a, (forall r', in_range (root_ext v) r' -> index (root_layout v) r' <> Some a) -> m' a = m a).
Proof. exact (put_lemma v i r x m). Qed.

(** Different view elements name different elements. *)
Theorem C19_distinct_elements v : wf v -> no_repeat v -> forall i j r, in_range (sizes v) i -> in_range (sizes v) j ->
  names v i r -> names v j r -> i = j.
Proof. exact (names_inj v). Qed.

(** So a view behaves as a block of its own. *)
Theorem C19_view_put_get {V} v i x (m : mem V) : wf v -> no_repeat v -> in_range (sizes v) i ->
  (forall a, 0 <= a < total_size (root_layout v) -> exists y, m a = Some y) ->
  exists m', put v m i x = Some m' /\ get v m' i = Some x /\
    forall j, in_range (sizes v) j -> j <> i -> get v m' j = get v m j.
Proof. exact (put_get_lemma v i x m). Qed.

(** A subset whose domain has stride 0 repeats its element: writing one
    view element changes the others. *)
Theorem C19_zero_stride_refuted : exists v i j (m m' : mem Z),
  wf v /\ in_range (sizes v) i /\ in_range (sizes v) j /\ i <> j /\
  put v m i 7 = Some m' /\ get v m' j <> get v m j.
Proof.
  exists (Subset [mkdom 1 0 2] (Root [3] (A1 3 1))), [0], [1], (fun _ => Some 0).
  eexists. split.
  { cbn [wf]. split; [|split].
    - split; [small|]. left. exists [0%nat], P_dense. split; [reflexivity|].
      intros [|d] Hd; [reflexivity|cbn in Hd; lia].
    - small.
    - small. }
  split; [small|]. split; [small|].
  split; [discriminate|]. split; [reflexivity|]. cbn. discriminate.
Qed.

(** C20: the direct pointer and strides of any nesting of views address
    the element get and put name, inside the allocation. *)
Theorem C20_pointer_addresses_named_element v i r : wf v -> in_range (sizes v) i -> names v i r ->
  index (root_layout v) r = Some (ptr v + dot_strides (vstride v) 0 i) /\
  0 <= ptr v + dot_strides (vstride v) 0 i < total_size (root_layout v).
Proof. exact (ptr_lemma v i r). Qed.

(** C21: the diagonal view has one element for every pair (a, a+k). *)
Theorem C21_diag_exact k v : wf v -> dim v = 2%nat -> - vsize v 0 <= k <= vsize v 1 ->
  (forall a b, 0 <= a < vsize v 0 -> 0 <= b < vsize v 1 -> b - a = k ->
     0 <= Z.min a b < vsize (Diag k v) 0 /\
     forall V (m : mem V), get (Diag k v) m [Z.min a b] = get v m [a; b]) /\
  (forall i, 0 <= i < vsize (Diag k v) 0 -> exists a b, 0 <= a < vsize v 0 /\ 0 <= b < vsize v 1 /\ b - a = k /\
     i = Z.min a b /\ forall V (m : mem V), get (Diag k v) m [i] = get v m [a; b]).
Proof. exact (diag_exact_lemma k v). Qed.

(** Beyond the last diagonal the size wraps: diag(5) of a 2x3 matrix has
    no pair, but the view reports two elements, outside the matrix. *)
Theorem C21_offset_beyond_matrix_refuted :
  exists v k i, wf v /\ dim v = 2%nat /\ 0 <= i < vsize (Diag k v) 0 /\
    (forall a b, 0 <= a < vsize v 0 -> 0 <= b < vsize v 1 -> b - a <> k) /\
    forall V (m : mem V), get (Diag k v) m [i] = None.
Proof.
  exists (Root [2;3] (A2row 2 3)), 5, 1.
  split. { split; [small|]. left. exists [0;1]%nat, P_dense. split; [reflexivity|].
           intros [|[|d]] Hd; [reflexivity..|cbn in Hd; lia]. }
  split; [reflexivity|]. split; [small1|].
  split; [cbn; intros; lia|]. intros V m. reflexivity.
Qed.

(** A reversed, strided subset of a slice of a permuted aligned tensor. *)
Definition ex_root := Root [3;5;4] (A3A [2;0;1]%nat [3;5;4] [16;1;48]).
Definition ex_view := Subset [mkdom 4 (-2) 3; mkdom 0 1 2] (Sliced 2 1 (Permuted [1;2;0]%nat ex_root)).
Example C19_ex_wf : wf ex_view /\ no_repeat ex_view /\ sizes ex_view = [3;2] /\ in_range (sizes ex_view) [2;1] /\
  names ex_view [2;1] [1;0;1] /\ ptr ex_view + dot_strides (vstride ex_view) 0 [2;1] = 64 /\
  index (root_layout ex_view) [1;0;1] = Some 64.
Proof.
  split.
  { cbn [ex_view wf]. split; [|split].
    - split; [|repeat split; cbn; try lia]. split; [|split; reflexivity].
      split; [small|]. left. exists [2;0;1]%nat, (P_aligned 16). split; [reflexivity|].
      intros [|[|[|d]]] Hd; [reflexivity..|cbn in Hd; lia].
    - small.
    - small. }
  split; [cbn; repeat constructor; cbn; lia|]. split; [reflexivity|]. split; [small|].
  split; [|split; reflexivity].
  cbn [names ex_view]. exists [0;1]. split; [repeat constructor|]. cbn [firstn skipn app]. exists [1;0;1].
  split; [reflexivity|]. split; [|reflexivity]. intros [|[|[|d]]] Hd; [reflexivity..|lia].
Qed.
Example C21_ex : vsize (Diag (-1) (Root [4;3] (A2row 4 3))) 0 = 3 /\ wf (Root [4;3] (A2row 4 3)).
Proof.
  split; [reflexivity|]. split; [small|]. left. exists [0;1]%nat, P_dense. split; [reflexivity|].
  intros [|[|d]] Hd; [reflexivity..|cbn in Hd; lia].
Qed.

Print Assumptions C19_each_element_names_one.
Print Assumptions C19_get_reads_named_element.
Print Assumptions C19_put_writes_named_element.
Print Assumptions C19_distinct_elements.
Print Assumptions C19_view_put_get.
Print Assumptions C19_zero_stride_refuted.
Print Assumptions C20_pointer_addresses_named_element.
Print Assumptions C21_diag_exact.
Print Assumptions C21_offset_beyond_matrix_refuted.
