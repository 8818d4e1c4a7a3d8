(** Property theorems C01-C04. *)
From Coq Require Import ZArith List Lia Bool.
From Verif Require Import Base Domain DomainProofs.
Import ListNotations.
Open Scope Z_scope.

(** ** C01 Domain equality means same index set *)

(** Domains reported equal always denote the same set of indices. *)
Theorem C01_domain_equality_sound :
  forall a b, dom_ok a -> dom_ok b -> impl_equals a b = true ->
  forall x, indom a x <-> indom b x.
Proof. exact equals_sound. Qed.
Print Assumptions C01_domain_equality_sound.

(** With at least two indices and non-zero strides, equality decides
    equality of index sets (in particular a domain equals its reversal). *)
Theorem C01_domain_equality_decides_index_sets :
  forall a b, dom_ok a -> dom_ok b -> 2 <= dlen a -> dstride a <> 0 -> dstride b <> 0 ->
  (impl_equals a b = true <-> (forall x, indom a x <-> indom b x)).
Proof.
  intros a b Ha Hb La Sa Sb. split.
  - exact (equals_sound a b Ha Hb).
  - exact (equals_complete a b Ha Hb ltac:(lia) Sa Sb).
Qed.
Print Assumptions C01_domain_equality_decides_index_sets.
Example C01_example :
  dom_ok (mkdom 1 3 4) /\ dom_ok (mkdom 10 (-3) 4) /\
  impl_equals (mkdom 1 3 4) (mkdom 10 (-3) 4) = true /\
  impl_equals (mkdom 1 3 4) (mkdom 10 3 4) = false.
Proof. unfold dom_ok, idx; cbn. repeat split; try lia; try reflexivity; discriminate. Qed.

(** Without those hypotheses the documented contract fails: two domains
    holding just index 5 differ because of their (irrelevant) strides,
    and two empty domains differ because of their first index. *)
Theorem C01_domain_equality_refuted :
  (exists a b, dom_ok a /\ dom_ok b /\ dlen a = 1 /\
     (forall x, indom a x <-> indom b x) /\ impl_equals a b = false) /\
  (exists a b, dom_ok a /\ dom_ok b /\ dlen a = 0 /\
     (forall x, indom a x <-> indom b x) /\ impl_equals a b = false).
Proof.
  split.
  - exists (mkdom 5 1 1), (mkdom 5 2 1).
    split; [vm_compute; repeat split; congruence|].
    split; [vm_compute; repeat split; congruence|].
    split; [reflexivity|]. split; [|reflexivity].
    intros x. unfold indom, idx; cbn [dfirst dstride dlen].
    split; intros (i & Hi & ->); exists i; lia.
  - exists (mkdom 5 1 0), (mkdom 9 1 0).
    split; [vm_compute; repeat split; congruence|].
    split; [vm_compute; repeat split; congruence|].
    split; [reflexivity|]. split; [|reflexivity].
    intros x. unfold indom, idx; cbn [dfirst dstride dlen].
    split; intros (i & Hi & _); lia.
Qed.
Print Assumptions C01_domain_equality_refuted.

(** ** C02 Domain arithmetic *)

(** d + k and d - k shift every index; the result is again a valid
    domain of the same length (or the shift left the representable range). *)
Theorem C02_domain_shift :
  forall d k, dom_ok d ->
  (forall i, 0 <= i < dlen d -> 0 <= idx d i + k < H64) -> 0 <= dfirst d + k < H64 ->
  exists r, impl_add_in d k = Some r /\ dom_ok r /\ dlen r = dlen d /\
            forall i, 0 <= i < dlen d -> impl_nth r i = impl_nth d i + k.
Proof.
  intros d k H R F.
  assert (K : dom_ok (mkdom (dfirst d + k) (dstride d) (dlen d))).
  { destruct H as (H1 & H2 & H3 & H4). unfold dom_ok, idx in *; cbn [dfirst dstride dlen].
    repeat split; try lia; specialize (R (dlen d - 1)); lia. }
  exists (mkdom (dfirst d + k) (dstride d) (dlen d)). split; [exact (add_in_ok d k H K)|].
  split; [exact K|]. split; [reflexivity|]. intros i Hi.
  rewrite !nth_idx by assumption. unfold idx; cbn [dfirst dstride]. ring.
Qed.
Print Assumptions C02_domain_shift.
Example C02_shift_example : impl_add_in (mkdom 9 (-2) 4) (-3) = Some (mkdom 6 (-2) 4).
Proof. reflexivity. Qed.

Theorem C02_domain_shift_back :
  forall d k, dom_ok d ->
  (forall i, 0 <= i < dlen d -> 0 <= idx d i - k < H64) -> 0 <= dfirst d - k < H64 ->
  exists r, impl_sub_out d k = Some r /\ dom_ok r /\ dlen r = dlen d /\
            forall i, 0 <= i < dlen d -> impl_nth r i = impl_nth d i - k.
Proof.
  intros d k H R F.
  assert (K : dom_ok (mkdom (dfirst d - k) (dstride d) (dlen d))).
  { destruct H as (H1 & H2 & H3 & H4). unfold dom_ok, idx in *; cbn [dfirst dstride dlen].
    repeat split; try lia; specialize (R (dlen d - 1)); lia. }
  exists (mkdom (dfirst d - k) (dstride d) (dlen d)). split; [exact (sub_out_ok d k H K)|].
  split; [exact K|]. split; [reflexivity|]. intros i Hi.
  rewrite !nth_idx by assumption. unfold idx; cbn [dfirst dstride]. ring.
Qed.
Print Assumptions C02_domain_shift_back.
Example C02_shift_back_example : impl_sub_out (mkdom 9 (-2) 4) 3 = Some (mkdom 6 (-2) 4).
Proof. reflexivity. Qed.

(** d * k keeps the first index and multiplies the spacing by k. *)
Theorem C02_domain_scale :
  forall d k, dom_ok d -> 0 <= k < W64 -> - H64 < dstride d * k < H64 ->
  (0 < dlen d -> 0 <= dfirst d + dstride d * k * (dlen d - 1) < H64) ->
  exists r, impl_mul_by d k = Some r /\ dom_ok r /\ dlen r = dlen d /\
            forall i, 0 <= i < dlen d ->
              impl_nth r i = dfirst d + k * (impl_nth d i - dfirst d).
Proof.
  intros d k H Hk S R.
  assert (K : dom_ok (mkdom (dfirst d) (dstride d * k) (dlen d))).
  { destruct H as (H1 & H2 & H3 & H4). unfold dom_ok, idx in *; cbn [dfirst dstride dlen]. lia. }
  exists (mkdom (dfirst d) (dstride d * k) (dlen d)). split; [exact (mul_by_ok d k H Hk K)|].
  split; [exact K|]. split; [reflexivity|]. intros i Hi.
  rewrite !nth_idx by assumption. unfold idx; cbn [dfirst dstride]. ring.
Qed.
Print Assumptions C02_domain_scale.
Example C02_scale_example : impl_mul_by (mkdom 20 (-2) 4) 3 = Some (mkdom 20 (-6) 4).
Proof. vm_compute. reflexivity. Qed.

(** For non-negative strides, division undoes multiplication ... *)
Theorem C02_domain_div_undoes_mul :
  forall d k, dom_ok d -> 0 <= dstride d -> 0 < k < W64 -> dstride d * k < H64 ->
  (0 < dlen d -> dfirst d + dstride d * k * (dlen d - 1) < H64) ->
  exists e, impl_mul_by d k = Some e /\ impl_div_by e k = Some d.
Proof.
  intros d k H S Hk B R. pose proof H as (H1 & H2 & H3 & H4).
  assert (K : dom_ok (mkdom (dfirst d) (dstride d * k) (dlen d))).
  { unfold dom_ok, idx in *; cbn [dfirst dstride dlen]. repeat split; try lia; nia. }
  exists (mkdom (dfirst d) (dstride d * k) (dlen d)).
  split; [apply mul_by_ok; (assumption || lia)|].
  rewrite div_by_ok; cbn [dfirst dstride dlen]; rewrite ?Z.div_mul by lia; try assumption; try lia; destruct d; first [reflexivity | exact H].
Qed.
Print Assumptions C02_domain_div_undoes_mul.
Example C02_div_example : impl_div_by (mkdom 20 6 4) 3 = Some (mkdom 20 2 4).
Proof. vm_compute. reflexivity. Qed.

(** ... but for negative strides it does not: the signed stride is
    divided as an unsigned number.  (9, -4, 2) / 2 is rejected by the
    validity assertion or, with assertions off, holds a huge stride. *)
Theorem C02_domain_div_negative_refuted :
  exists d k, dom_ok d /\ dom_ok (mkdom (dfirst d) (dstride d * k) (dlen d)) /\
    exists e, impl_mul_by d k = Some e /\ impl_div_by e k <> Some d /\
              s64 (u64 (dstride e) / k) = H64 - 2.
Proof.
  exists (mkdom 9 (-2) 2), 2.
  split; [unfold dom_ok, idx; vm_compute; repeat split; congruence|].
  split; [unfold dom_ok, idx; vm_compute; repeat split; congruence|].
  exists (mkdom 9 (-4) 2). vm_compute. repeat split; discriminate.
Qed.
Print Assumptions C02_domain_div_negative_refuted.

(** ** C03 Intersection *)

Theorem C03_intersect_exact :
  forall a b, dom_ok a -> dom_ok b -> dstride a = 1 -> 0 < dstride b ->
  0 < dlen a -> 0 < dlen b ->
  exists r, intersect a b = Some r /\
  match r with
  | None => forall x, ~ (indom a x /\ indom b x)
  | Some c => dom_ok c /\ 0 < dlen c /\ dstride c = dstride b /\
              (forall x, indom c x <-> indom a x /\ indom b x)
  end.
Proof. exact intersect_exact_lemma. Qed.
Print Assumptions C03_intersect_exact.
Example C03_example :
  dom_ok (mkdom 4 1 10) /\ dom_ok (mkdom 1 4 100) /\
  intersect (mkdom 4 1 10) (mkdom 1 4 100) = Some (Some (mkdom 5 4 3)) /\
  intersect (mkdom 4 1 3) (mkdom 1 6 100) = Some None.
Proof. vm_compute; repeat split; congruence. Qed.

(** The same in two, three (any number of) dimensions. *)
Theorem C03_intersect_exact_multi :
  forall a b,
  Forall2 (fun a b => dom_ok a /\ dom_ok b /\ dstride a = 1 /\ 0 < dstride b /\
                      0 < dlen a /\ 0 < dlen b) a b ->
  exists r, intersectD a b = Some r /\
  match r with
  | None => forall x, ~ (indomD a x /\ indomD b x)
  | Some c => Forall2 (fun c d => dom_ok c /\ 0 < dlen c /\ dstride c = dstride d) c b /\
              (forall x, indomD c x <-> indomD a x /\ indomD b x)
  end.
Proof. exact intersectD_exact_lemma. Qed.
Print Assumptions C03_intersect_exact_multi.
Example C03_multi_example :
  intersectD [mkdom 0 1 4; mkdom 2 1 5] [mkdom 1 2 9; mkdom 0 1 4]
  = Some (Some [mkdom 1 2 2; mkdom 2 1 2]).
Proof. vm_compute. reflexivity. Qed.

(** Outside those hypotheses the result is wrong: an empty domain that
    starts at 0 (impl_last wraps to 2^64-1) is reported to intersect,
    and a reversed domain loses common elements. *)
Theorem C03_intersect_empty_refuted :
  exists a b c, dom_ok a /\ dom_ok b /\ dlen a = 0 /\ dstride b = 1 /\
    intersect a b = Some (Some c) /\ dlen c = 3 /\ (forall x, ~ indom a x).
Proof.
  exists (mkdom 0 1 0), (mkdom 0 1 3), (mkdom 0 1 3).
  vm_compute. repeat split; try congruence.
  intros x (i & [H1 H2] & _). destruct i; congruence.
Qed.
Print Assumptions C03_intersect_empty_refuted.

Theorem C03_intersect_negative_stride_refuted :
  exists a b, dom_ok a /\ dom_ok b /\ dstride a = 1 /\ dstride b = -1 /\
    intersect a b = Some None /\ indom a 2 /\ indom b 2.
Proof.
  exists (mkdom 0 1 4), (mkdom 3 (-1) 4).
  split; [vm_compute; repeat split; congruence|].
  split; [vm_compute; repeat split; congruence|].
  repeat split; try reflexivity.
  - exists 2; vm_compute; repeat split; congruence.
  - exists 1; vm_compute; repeat split; congruence.
Qed.
Print Assumptions C03_intersect_negative_stride_refuted.

(** ** C04 Local coordinates of an intersection *)

Theorem C04_apply_intr_positions :
  forall x y i,
  dom_ok x -> dom_ok y -> dom_ok i -> dstride y = 1 -> dlen x = dlen y -> 0 < dlen i ->
  - H64 < dstride x * dstride i < H64 ->
  (forall z, indom i z -> indom y z) ->
  exists r, apply_intr x y i = Some r /\ dlen r = dlen i /\ dom_ok r /\
  forall k, 0 <= k < dlen i ->
    exists p, 0 <= p < dlen y /\ idx y p = idx i k /\ idx r k = idx x p.
Proof. exact apply_intr_lemma. Qed.
Print Assumptions C04_apply_intr_positions.
Example C04_apply_example :
  apply_intr (mkdom 0 1 6) (mkdom 10 1 6) (mkdom 11 2 3) = Some (mkdom 1 2 3).
Proof. vm_compute. reflexivity. Qed.

Theorem C04_subset_from_intr_positions :
  forall d i, dom_ok d -> dom_ok i -> 0 < dstride d -> dstride i = dstride d -> 0 < dlen i ->
  (forall z, indom i z -> indom d z) ->
  exists r, subset_from_intr d i = Some r /\ dlen r = dlen i /\ dom_ok r /\
  forall k, 0 <= k < dlen i -> 0 <= idx r k < dlen d /\ idx d (idx r k) = idx i k.
Proof. exact subset_from_intr_lemma. Qed.
Print Assumptions C04_subset_from_intr_positions.
Example C04_subset_example :
  subset_from_intr (mkdom 1 4 100) (mkdom 5 4 3) = Some (mkdom 1 1 3).
Proof. vm_compute. reflexivity. Qed.

(** The same in two, three (any number of) dimensions. *)
Theorem C04_apply_intr_positions_multi :
  forall x y i, length y = length x -> length i = length x ->
  (forall d a b c, nth_error x d = Some a -> nth_error y d = Some b -> nth_error i d = Some c ->
    dom_ok a /\ dom_ok b /\ dom_ok c /\ dstride b = 1 /\ dlen a = dlen b /\ 0 < dlen c /\
    - H64 < dstride a * dstride c < H64 /\ (forall z, indom c z -> indom b z)) ->
  exists r, apply_intrD x y i = Some r /\ Forall2 (fun a b => dlen a = dlen b) r i /\ Forall dom_ok r /\
  forall k, posD i k -> exists p, posD y p /\ idxD y p = idxD i k /\ idxD r k = idxD x p.
Proof. exact apply_intrD_lemma. Qed.
Print Assumptions C04_apply_intr_positions_multi.
Example C04_apply_multi_example :
  apply_intrD [mkdom 0 1 6; mkdom 3 2 4] [mkdom 10 1 6; mkdom 7 1 4] [mkdom 11 2 3; mkdom 8 1 2]
  = Some [mkdom 1 2 3; mkdom 5 2 2].
Proof. vm_compute. reflexivity. Qed.

Theorem C04_subset_from_intr_positions_multi :
  forall d i, Forall2 (fun d i => dom_ok d /\ dom_ok i /\ 0 < dstride d /\ dstride i = dstride d /\ 0 < dlen i /\
                                  (forall z, indom i z -> indom d z)) d i ->
  exists r, subset_from_intrD d i = Some r /\ Forall2 (fun a b => dlen a = dlen b) r i /\ Forall dom_ok r /\
  forall k, posD i k -> posD d (idxD r k) /\ idxD d (idxD r k) = idxD i k.
Proof. exact subset_from_intrD_lemma. Qed.
Print Assumptions C04_subset_from_intr_positions_multi.
Example C04_subset_multi_example :
  subset_from_intrD [mkdom 1 4 100; mkdom 2 1 9] [mkdom 5 4 3; mkdom 4 1 2] = Some [mkdom 1 1 3; mkdom 2 1 2].
Proof. vm_compute. reflexivity. Qed.

(** ** C49 The size of a domain is the number of its indices *)
Theorem C49_size_counts_indices :
  forall d, Forall (fun a => dom_ok a /\ dstride a <> 0) d -> fold_right (fun x s => dlen x * s) 1 d < W64 ->
  exists l, NoDup l /\ (forall x, In x l <-> indomD d x) /\ dom_size d = Z.of_nat (length l).
Proof. exact dom_size_lemma. Qed.
Print Assumptions C49_size_counts_indices.
Example C49_example : dom_size [mkdom 0 1 6; mkdom 30 (-2) 4; mkdom 1 3 2] = 48.
Proof. vm_compute. reflexivity. Qed.
