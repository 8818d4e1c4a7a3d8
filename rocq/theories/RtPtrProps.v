(** Property C92: pointers whose storage format is known at run time. *)
From Coq Require Import ZArith List Bool Lia.
From Verif Require Import RtPtr RtPtrProofs.
Import ListNotations.
Local Open Scope Z_scope.

(** A pointer to data, passed through any sequence of conversions to const and
    back, gives back a pointer of every format that fits the data, and it
    names the same elements. *)
Theorem C92_same_data_partial (p : native) (cs : list conv) (f : format) : fits f p ->
  (exists q, as_ f (converts cs (Mut (make p))) = Got q /\ kind q = f /\ same_elements q p) /\
  (exists q, as_ f (converts cs (Const (make p))) = Got q /\ kind q = f /\ same_elements q p).
Proof. intros F. split; apply converts_fits; auto. Qed.
(** A format that does not fit is refused by a modifiable pointer. *)
Theorem C92_wrong_format_partial (p : native) (cs : list conv) (f : format) : ~ fits f p ->
  as_ f (converts (cs ++ [ToMut]) (Mut (make p))) = Refused /\ as_ f (converts (cs ++ [ToMut]) (Const (make p))) = Refused /\
  as_ f (Mut (make p)) = Refused.
Proof.
  assert (M : forall v, is_mut (converts (cs ++ [ToMut]) v)) by (intros v; unfold converts; rewrite fold_left_app; cbn; destruct (fold_left convert cs v); exact I).
  intros F. split; [|split]; [apply (converts_refused p); auto..|]. exact (converts_refused p [] (Mut (make p)) f eq_refl I F).
Qed.
(** A pointer is true exactly when it is not null, and stays so. *)
Theorem C92_null (p : native) (cs : list conv) (f : format) :
  (test (converts cs (Mut (make p))) = true <-> ~ null p) /\ (test (converts cs (Const (make p))) = true <-> ~ null p) /\
  test (converts cs (Mut make_default)) = false /\ test (converts cs (Const make_default)) = false /\
  test (converts cs (Mut (make_null f))) = false /\ test (converts cs (Const (make_null f))) = false.
Proof.
  split; [apply test_make; reflexivity|]. split; [apply test_make; reflexivity|].
  split; [apply (converts_null_test any_storage_format); split; reflexivity|].
  split; [apply (converts_null_test any_storage_format); split; reflexivity|].
  split; apply (converts_null_test f); split; reflexivity.
Qed.
(** Casts between complex<T>* and T* name the same elements. *)
Theorem C92_pointer_cast (p : native) :
  (forall q, pointer_cast_complex p = Some q -> kind q = array /\ same_elements q p) /\
  (forall q, pointer_cast_real p = Some q -> kind q = interleaved_complex /\ same_elements q p) /\
  (pointer_cast_complex p = None <-> kind p = split_complex) /\ (pointer_cast_real p = None <-> kind p = split_complex).
Proof.
  destruct p as [a|a|r i]; cbn; repeat split; intros; try discriminate;
    match goal with H : Some _ = Some _ |- _ => injection H as <-; reflexivity | _ => reflexivity end.
Qed.
(** is_aligned_to looks at the first cell of each array the data is in. *)
Theorem C92_aligned (s align : Z) (p : native) : 0 < align ->
  is_aligned_to s align p = true <-> (align | real_at p 0 * s) /\ (kind p = split_complex -> (align | imag_at p 0 * s)).
Proof.
  intros Ha. rewrite aligned_ok by exact Ha. destruct p as [a|a|r i]; cbn [kind]; split; intros [A B]; split; auto; try discriminate; try (intros; discriminate).
Qed.

(** Defect: a const_pointer does not check the format it is asked for, unlike
    pointer.  Asked for an array or for interleaved data, one to split data
    gives an array that starts in the real parts, so that the imaginary part of the first element is the
    real part of the second. *)
Theorem C92_const_format_refuted (re im : Z) (cs : list conv) (f : format) : f = array \/ f = interleaved_complex -> exists q,
  as_ f (converts (cs ++ [ToConst]) (Mut (make (Split re im)))) = Got q /\ kind q = f /\
  imag_at q 0 = real_at (Split re im) 1 /\ (im <> re + 1 -> ~ same_elements q (Split re im)).
Proof.
  intros F. pose proof (converts_make (Split re im) (cs ++ [ToConst]) (Mut (make (Split re im))) eq_refl) as H.
  assert (E : converts (cs ++ [ToConst]) (Mut (make (Split re im))) = Const (make (Split re im))).
  { unfold converts in *. rewrite fold_left_app in *. cbn [fold_left] in *. destruct (fold_left convert cs _) as [p|p]; cbn [convert inside] in H |- *; rewrite H; reflexivity. }
  rewrite E. destruct F as [-> | ->]; [exists (Array re)|exists (Inter re)]; cbn; (split; [reflexivity|]; split; [reflexivity|]; split; [lia|];
  intros N S; destruct (S 0) as [_ S2]; cbn in S2; lia).
Qed.
(** Defect: asked for split storage, a const_pointer to an array gives a pair
    whose second pointer was never set. *)
Theorem C92_const_split_refuted (a : Z) (cs : list conv) :
  as_ split_complex (converts (cs ++ [ToConst]) (Mut (make (Array a)))) = Garbage /\ as_ split_complex (converts (cs ++ [ToConst]) (Mut (make (Inter a)))) = Garbage.
Proof.
  assert (E : forall p, converts (cs ++ [ToConst]) (Mut (make p)) = Const (make p)).
  { intros p. pose proof (converts_make p (cs ++ [ToConst]) (Mut (make p)) eq_refl) as H. unfold converts in *. rewrite fold_left_app in *. cbn [fold_left] in *.
    destruct (fold_left convert cs _) as [q|q]; cbn [convert inside] in H |- *; rewrite H; reflexivity. }
  rewrite !E. split; reflexivity.
Qed.
(** Defect: a null pointer made for split storage has only its first half set:
    the pair it gives has a second pointer that was never set, before and
    after any conversions. *)
Theorem C92_null_split_refuted (cs : list conv) :
  as_ split_complex (converts cs (Mut (make_null split_complex))) = Garbage /\ as_ split_complex (converts cs (Const (make_null split_complex))) = Garbage.
Proof.
  assert (E : forall cs v, inside v = make_null split_complex -> inside (converts cs v) = make_null split_complex).
  { intros l; induction l as [|c l IH]; intros v H; [exact H|]. apply IH. destruct c, v as [p|p]; cbn in *; subst; reflexivity. }
  split; [pose proof (E cs (Mut (make_null split_complex)) eq_refl) as H|pose proof (E cs (Const (make_null split_complex)) eq_refl) as H];
    destruct (converts cs _); cbn in H; subst; reflexivity.
Qed.

(** Split data at 100 and 200, and an array at 300. *)
Example C92_ex : fits split_complex (Split 100 200) /\ ~ fits array (Split 100 200) /\
  as_ split_complex (converts [ToConst; ToMut; ToConst] (Mut (make (Split 100 200)))) = Got (Split 100 200) /\
  as_ interleaved_complex (converts [ToConst; ToMut] (Mut (make (Array 300)))) = Got (Inter 300) /\
  as_ array (converts [ToConst; ToMut] (Mut (make (Split 100 200)))) = Refused /\
  as_ array (converts [ToConst] (Mut (make (Split 100 200)))) = Got (Array 100) /\
  is_aligned_to 4 16 (Split 100 200) = true /\ is_aligned_to 4 32 (Split 104 202) = false.
Proof. repeat split; try reflexivity. intros H; discriminate H. Qed.

Print Assumptions C92_same_data_partial.
Print Assumptions C92_wrong_format_partial.
Print Assumptions C92_null.
Print Assumptions C92_pointer_cast.
Print Assumptions C92_aligned.
Print Assumptions C92_const_format_refuted.
Print Assumptions C92_const_split_refuted.
Print Assumptions C92_null_split_refuted.
