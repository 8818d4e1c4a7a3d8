(** * Fourier transforms through C-VSIPL

    Model of src/ovxx/cvsip/fft.cpp: the 1-D transforms and the transforms of
    all rows or columns of a matrix handed to a C-VSIPL library, under the front
    ends of signal/fft.hpp.  Memory, views and the mathematical transform are
    those of [Dft].

    Simplifications: exact arithmetic as in [Dft]; the data is directly accessible in the
    layout the overload called is for (the workspace otherwise copies, see C70); both
    data formats of complex numbers are covered, although the layout this backend asks for
    (fft_backend::query_layout, not overridden) is interleaved; views are local; allocation succeeds and the
    views created are never destroyed.  Blocks are never admitted, as in
    [CVsip]; the libraries considered here do not insist on it. *)
From Coq Require Import ZArith List Bool Arith Lia.
From Verif Require Import Base Dft.
Import ListNotations.
Local Open Scope nat_scope.

(** A view of C-VSIPL over a block of [fv_size] elements at [fv_ptr]. *)
Record fview := { fv_ptr : ptr; fv_size : Z; fv_off : Z; fv_st : Z; fv_len : nat }.
(** View<1,T,true>(data, offset, stride, size): view.hpp 539-542, 565-574.  The
    block's size is computed with unsigned numbers. *)
Definition bound (p : ptr) (off st : Z) (n : nat) : fview :=
  {| fv_ptr := p; fv_size := u64 (off + (Z.of_nat n - 1) * st + 1); fv_off := off; fv_st := st; fv_len := n |}.
(** View<1,ctype,false>(n): a vector made by the library. *)
Definition created (n : nat) : fview :=
  {| fv_ptr := Tmp 0; fv_size := Z.of_nat n; fv_off := 0; fv_st := 1; fv_len := n |}.

Section CVsipFft.
Context (R : CRing) (t : trig R).
Notation st := (st R).
Implicit Types (m : st) (p q : ptr) (sc : R).

(** vsip_{cc,rc,cr}fftop_{f,d} with an object made by vsip_{cc,rc,cr}fftop_create_{f,d} for
    kind, sign, length and scale factor (fft.cpp 20-102), and vsip_cvcopy. *)
Record library := {
  fftop : kind -> Z -> nat -> R -> fview -> fview -> st -> option st;
  vcopy : fview -> fview -> st -> option st }.
Context (L : library).

(** Fft<1,complex,complex,S>::out_of_place (fft.cpp 148-163), Fft<1,T,complex,0>::out_of_place
    (184-199) and Fft<1,complex,T,0>::out_of_place (220-235): both views get [len] elements. *)
Definition fft_out (k : kind) (e : Z) (n : nat) sc p (sp : Z) q (sq : Z) (len : nat) m : option st :=
  fftop L k e n sc (bound p 0 sp len) (bound q 0 sq len) m.
(** Fft<1,complex,complex,S>::in_place (134-147). *)
Definition fft_in (e : Z) (n : nat) sc q (s : Z) (len : nat) m : option st :=
  m1 <- fftop L C2C e n sc (bound q 0 s len) (created len) (tmp_alloc R len m) ;;
  m2 <- vcopy L (created len) (bound q 0 s len) m1 ;;
  Some (tmp_free R m m2).

(** Fftm: the axis along which to transform (252, 413, 512): A == vsip::col ? 0 : 1. *)
Definition axis_of (A : nat) : nat := if A =? 1 then 0 else 1.
(** Fftm::out_of_place (324-397, 423-496, 522-595).  The overload for two split complex arrays gives
    the view of the input the stride of the output (393). *)
Definition fftm_out (A : nat) (k : kind) (e : Z) (n : nat) sc p (irs ics : Z) q (ors ocs : Z) (rows cols : nat) m : option st :=
  let axis := axis_of A in
  let nfft := if axis =? 1 then rows else cols in
  let '(ivs, ies, ovs, oes, len) := if axis =? 0 then (ics, irs, ocs, ors, rows) else (irs, ics, ors, ocs, cols) in
  loop (fun i m =>
    fftop L k e n sc
      (bound p (u64 (Z.of_nat i * ivs)) (match k, p with C2C, Split _ _ => oes | _, _ => ies end) (in_size k len))
      (bound q (u64 (Z.of_nat i * ovs)) oes (out_size k len)) m) 0 nfft m.
(** Fftm<complex,complex,A,D>::in_place (262-323). *)
Definition fftm_in (A : nat) (e : Z) (n : nat) sc q (rs cs : Z) (rows cols : nat) m : option st :=
  let axis := axis_of A in
  let nfft := if axis =? 1 then rows else cols in
  let '(vs, es, len) := if axis =? 0 then (cs, rs, rows) else (rs, cs, cols) in
  m' <- loop (fun i m =>
    m1 <- fftop L C2C e n sc (bound q (u64 (Z.of_nat i * vs)) es len) (created len) m ;;
    vcopy L (created len) (bound q (u64 (Z.of_nat i * vs)) es len) m1) 0 nfft (tmp_alloc R len m) ;;
  Some (tmp_free R m m').

(** The front ends: Fft<1,...>::operator() (fft.hpp 243-267) and Fftm::operator() (396-431), with the sizes of
    io_size (util.hpp 60-78), and the workspace's choice of the size to pass on
    (workspace.hpp 55-108, 115-186).  The backend supports the scale factor, so that the
    workspace does not apply it. *)
Definition fft_cv (k : kind) (e : Z) (n : nat) sc (i o : vw) m : option st :=
  assert (vn i =? in_size k n) ;;
  assert (vn o =? out_size k n) ;;
  fft_out k e n sc (vp i) (vs i) (vp o) (vs o) (match k with C2R => vn o | _ => vn i end) m.
Definition fft_cv_in_place (e : Z) (n : nat) sc (io : vw) m : option st :=
  assert (vn io =? n) ;;
  fft_in e n sc (vp io) (vs io) (vn io) m.
(** A view of a matrix: pointer, strides and sizes. *)
Record mw := Mw { mp : ptr; mrs : Z; mcs : Z; mnr : nat; mnc : nat }.
(** The transform is made for dom[axis].size() elements (256, 417, 516). *)
Definition fftm_cv (A : nat) (k : kind) (e : Z) (rows cols : nat) sc (i o : mw) m : option st :=
  let size f := if 1 - A =? 0 then (f rows, cols) else (rows, f cols) in
  assert ((mnr i =? fst (size (in_size k))) && (mnc i =? snd (size (in_size k)))) ;;
  assert ((mnr o =? fst (size (out_size k))) && (mnc o =? snd (size (out_size k)))) ;;
  let n := if axis_of A =? 0 then rows else cols in
  let s := match k with C2R => o | _ => i end in
  fftm_out A k e n sc (mp i) (mrs i) (mcs i) (mp o) (mrs o) (mcs o) (mnr s) (mnc s) m.
Definition fftm_cv_in_place (A : nat) (e : Z) (rows cols : nat) sc (io : mw) m : option st :=
  assert ((mnr io =? rows) && (mnc io =? cols)) ;;
  fftm_in A e (if axis_of A =? 0 then rows else cols) sc (mp io) (mrs io) (mcs io) (mnr io) (mnc io) m.

(** * Specification *)

(** The transform of a sequence with the scale factor. *)
Definition spectrum (k : kind) (e : Z) (n : nat) sc (x : nat -> Cr R) (w : nat) : Cr R :=
  match k with
  | C2R => (ofR R (fst (DFT R t 1 n (herm R n x) w)) * ofR R sc)%cr
  | _ => (DFT R t e n x w * ofR R sc)%cr
  end.
(** Real transforms go one way only, and take and give arrays of the right type. *)
Definition sign_ok (k : kind) (e : Z) : Prop :=
  match k with C2C => e = 1%Z \/ e = (-1)%Z | R2C => e = (-1)%Z | C2R => e = 1%Z end.
Definition types_ok (k : kind) p q : Prop :=
  match k with C2C => cpx_ptr p /\ cpx_ptr q | R2C => real_ptr p /\ cpx_ptr q | C2R => cpx_ptr p /\ real_ptr q end.

(** Where the elements of a view are, and what the standard asks of a view: it is not
    empty and all its elements are in its block. *)
Definition pos (v : fview) (i : nat) : Z := (fv_off v + Z.of_nat i * fv_st v)%Z.
Definition usable (v : fview) : Prop :=
  0 < fv_len v /\ forall i, i < fv_len v -> (0 <= pos v i < fv_size v)%Z.
(** A view must have exactly as many elements as the transform
    asks for; a [lax] library ignores those beyond. *)
Definition fits (lax : bool) (want have : nat) : Prop := if lax then want <= have else have = want.
(** Arrays that a view of that type may be over; [Tmp] is a complex vector of the library. *)
Definition cpx_side p : Prop := match p with Real _ => False | _ => True end.
Definition sides_ok (k : kind) p q : Prop :=
  match k with C2C => cpx_side p /\ cpx_side q | R2C => real_ptr p /\ cpx_side q | C2R => cpx_side p /\ real_ptr q end.
(** What the standard promises in return.  A library may restrict real transforms to even lengths
    ([evn]). *)
Record documented (lax evn : bool) : Prop := {
  doc_fft : forall k e n sc vi vo x, sign_ok k e -> 0 < n -> (k <> C2C -> evn = true -> Nat.even n = true) ->
    usable vi -> usable vo -> fits lax (in_size k n) (fv_len vi) -> fits lax (out_size k n) (fv_len vo) ->
    sides_ok k (fv_ptr vi) (fv_ptr vo) ->
    dist (ix1 (out_size k n)) (fv_ptr vo) (pos vo) ->
    disj (ix1 (in_size k n)) (fv_ptr vi) (pos vi) (ix1 (out_size k n)) (fv_ptr vo) (pos vo) ->
    computes R (fftop L k e n sc vi vo) (ix1 (in_size k n)) (fv_ptr vi) (pos vi) x
      (ix1 (out_size k n)) (fv_ptr vo) (pos vo) (spectrum k e n sc x);
  doc_copy : forall a b x, usable a -> usable b -> fv_len b = fv_len a -> cpx_side (fv_ptr a) -> cpx_side (fv_ptr b) ->
    dist (ix1 (fv_len b)) (fv_ptr b) (pos b) ->
    disj (ix1 (fv_len a)) (fv_ptr a) (pos a) (ix1 (fv_len b)) (fv_ptr b) (pos b) ->
    computes R (vcopy L a b) (ix1 (fv_len a)) (fv_ptr a) (pos a) x (ix1 (fv_len b)) (fv_ptr b) (pos b) x }.

(** The transform of every column ([A] = 1, vsip::col) or row of a matrix. *)
Definition lines (A : nat) (k : kind) (e : Z) (rows cols : nat) sc (x : nat * nat -> Cr R) (rc : nat * nat) : Cr R :=
  if A =? 1 then spectrum k e rows sc (fun r => x (r, snd rc)) (fst rc)
  else spectrum k e cols sc (fun c => x (fst rc, c)) (snd rc).
(** A view's strides are not negative, it is not empty, and it fits the address space. *)
Definition upward1 (v : vw) : Prop := 0 < vn v /\ (0 <= vs v)%Z /\ ((Z.of_nat (vn v) - 1) * vs v + 1 < 18446744073709551616)%Z.
Definition upward2 (v : mw) : Prop := 0 < mnr v /\ 0 < mnc v /\ (0 <= mrs v)%Z /\ (0 <= mcs v)%Z /\
  ((Z.of_nat (mnr v) - 1) * mrs v + (Z.of_nat (mnc v) - 1) * mcs v + 1 < 18446744073709551616)%Z.
(** The elements of views. *)
Definition el1 (v : vw) (i : nat) : Z := (Z.of_nat i * vs v)%Z.
Definition el2 (v : mw) (rc : nat * nat) : Z := (Z.of_nat (fst rc) * mrs v + Z.of_nat (snd rc) * mcs v)%Z.
End CVsipFft.
Arguments fftop {R}. Arguments vcopy {R}.

(** A library that checks what it is given and otherwise computes the sums: one that keeps the promises. *)
Section Reference.
Context (R : CRing) (t : trig R) (lax evn : bool).
Definition okv (v : fview) : bool :=
  (0 <? fv_len v) && forallb (fun i => (0 <=? pos v i)%Z && (pos v i <? fv_size v)%Z) (seq 0 (fv_len v)).
Definition fitsb (want have : nat) : bool := if lax then want <=? have else have =? want.
(** The value of element [w] of the result. *)
Definition fft_value (k : kind) (e : Z) (n : nat) (p : ptr) (s : Z) (w : nat) (m : st R) : option (Cr R) :=
  match k with
  | C2R => a <- inner R t 1 n p s w (n / 2 + 1) m ;;
      loop (fun j (acc : Cr R) => x <- get R m p (Z.of_nat (n - j) * s)%Z ;;
        Some (acc + cconj R x * sin_cos R t n (1 * Z.of_nat j * Z.of_nat w)%Z)%cr) (n / 2 + 1) (n - (n / 2 + 1)) a
  | _ => inner R t e n p s w n m
  end.
Definition reference : library R := {|
  fftop := fun k e n sc vi vo m =>
    assert (okv vi && okv vo && fitsb (in_size k n) (fv_len vi) && fitsb (out_size k n) (fv_len vo)) ;;
    assert (match k with C2C => true | _ => negb evn || Nat.even n end) ;;
    loop (fun w m => v <- fft_value k e n (padd (fv_ptr vi) (fv_off vi)) (fv_st vi) w m ;;
      put R m (fv_ptr vo) (pos vo w) (v * ofR R sc)%cr) 0 (out_size k n) m;
  vcopy := fun a b m =>
    assert (okv a && okv b && (fv_len b =? fv_len a)) ;;
    loop (fun i m => v <- get R m (fv_ptr a) (pos a i) ;; put R m (fv_ptr b) (pos b i) v) 0 (fv_len a) m |}.
End Reference.
