(** Theorems about distributed blocks made from Python. *)
From Coq Require Import String List ZArith Bool Lia.
From Verif Require Import PyLang PyProg PyPar PyParProofs.
Import ListNotations.
Local Open Scope string_scope.
Local Open Scope Z_scope.

(** block(dtype, shape, map) makes an uninitialised vector or matrix of that type, shape and map. *)
Theorem C100_plain : forall W ld k t d m, offered d -> denotes t d ->
  (forall n, 0 <= n -> pcall W ld k "block" [VType t; VTuple [VInt n]; map_object m] =
     one_call W "block1" [("l", VInt n); ("m", map_object m)] (VObj "block1" d k)) /\
  (forall r c, 0 <= r -> 0 <= c -> pcall W ld k "block" [VType t; VTuple [VInt r; VInt c]; map_object m] =
     one_call W "block2" [("r", VInt r); ("c", VInt c); ("m", map_object m)] (VObj "block2" d k)).
Proof. intros. split; intros; [apply vector_plain | apply matrix_plain]; assumption. Qed.

(** Missing: values equal to zero, and integers for vectors (see the refutations).  Otherwise
    block(dtype, shape, value, map) hands the value over. *)
Theorem C100_filled_partial : forall W ld k t d m, offered d -> denotes t d ->
  (forall n x, 0 <= n -> x <> 0 -> d <> I32 -> pcall W ld k "block" [VType t; VTuple [VInt n]; VNum x; map_object m] =
     one_call W "block1_init" [("l", VInt n); ("value", VNum x); ("m", map_object m)] (VObj "block1" d k)) /\
  (forall n x, 0 <= n -> x <> 0 -> d = C64 -> pcall W ld k "block" [VType t; VTuple [VInt n]; VCplx x; map_object m] =
     one_call W "block1_init" [("l", VInt n); ("value", VCplx x); ("m", map_object m)] (VObj "block1" d k)) /\
  (forall r c x, 0 <= r -> 0 <= c -> x <> 0 -> d <> I32 -> pcall W ld k "block" [VType t; VTuple [VInt r; VInt c]; VNum x; map_object m] =
     one_call W "block2_init" [("r", VInt r); ("c", VInt c); ("value", VNum x); ("m", map_object m)] (VObj "block2" d k)) /\
  (forall r c x, 0 <= r -> 0 <= c -> x <> 0 -> d = C64 -> pcall W ld k "block" [VType t; VTuple [VInt r; VInt c]; VCplx x; map_object m] =
     one_call W "block2_init" [("r", VInt r); ("c", VInt c); ("value", VCplx x); ("m", map_object m)] (VObj "block2" d k)) /\
  (forall r c x, 0 <= r -> 0 <= c -> x <> 0 -> -2147483648 <= x < 2147483648 ->
     pcall W ld k "block" [VType t; VTuple [VInt r; VInt c]; VInt x; map_object m] =
     one_call W "block2_init" [("r", VInt r); ("c", VInt c); ("value", VInt x); ("m", map_object m)] (VObj "block2" d k)).
Proof.
  intros. repeat split; intros; subst;
    [apply vector_float | apply vector_cplx | apply matrix_float | apply matrix_cplx | apply matrix_int]; assumption.
Qed.

(** A value that the element type cannot hold is refused, and nothing is called: a fraction for integers, a complex
    number for real ones. *)
Theorem C100_unfit : forall W ld k t d v m, offered d -> denotes t d -> unfit d v ->
  (forall n, pcall W ld k "block" [VType t; VTuple [VInt n]; v; map_object m] = Raises "ArgumentError" []) /\
  (forall r c, pcall W ld k "block" [VType t; VTuple [VInt r; VInt c]; v; map_object m] = Raises "ArgumentError" []).
Proof. exact unfit_raises. Qed.
Example C100_unfit_ex : offered F32 /\ denotes (NpType F32) F32 /\ unfit F32 (VCplx 7) /\ unfit I32 (VNum 7).
Proof.
  unfold offered, denotes, unfit. repeat split; auto; [right | left]; exists 7; repeat split; auto; discriminate.
Qed.

Example C100_example :
  let W := {| w_ok := fun e => if String.eqb (ev_fun e) "block1" then None else Some true; w_num := fun _ => 0; w_index := fun _ => 0 |} in
  pcall W (fun _ => false) 9 "block" [VType TyFloat; VTuple [VInt 8]; VNum 5; map_object 2] =
    Returns (VObj "block1" F64 9) [("block1_init", [("l", VInt 8); ("value", VNum 5); ("m", VObj "map" I32 2)])] /\
  pcall W (fun _ => false) 9 "block" [VType (NpType F32); VTuple [VInt 8; VInt 4]; map_object 2] =
    Returns (VObj "block2" F32 9) [("block2", [("r", VInt 8); ("c", VInt 4); ("m", VObj "map" I32 2)])] /\
  pcall W (fun _ => false) 9 "block" [VType TyInt; VTuple [VInt 8]; map_object 2] =
    Raises "RuntimeError" [("block1", [("l", VInt 8); ("m", VObj "map" I32 2)])] /\
  offered C64 /\ denotes (Dtype C64) C64 /\ zero (VNum 0).
Proof. repeat split; try (vm_compute; reflexivity); unfold offered, denotes, zero; auto. Qed.

(** Defect: a distributed vector or matrix to be filled with zero is not initialised at all, because zero counts as
    no value; so are the matrices of the shipped example. *)
Theorem C100_zero_refuted : forall W ld k t d v m, offered d -> denotes t d -> zero v ->
  (forall n, 0 <= n -> pcall W ld k "block" [VType t; VTuple [VInt n]; v; map_object m] =
     one_call W "block1" [("l", VInt n); ("m", map_object m)] (VObj "block1" d k)) /\
  (forall r c, 0 <= r -> 0 <= c -> pcall W ld k "block" [VType t; VTuple [VInt r; VInt c]; v; map_object m] =
     one_call W "block2" [("r", VInt r); ("c", VInt c); ("m", map_object m)] (VObj "block2" d k)).
Proof. intros. split; intros; [apply vector_zero | apply matrix_zero]; assumption. Qed.

(** Defect: a distributed vector to be filled with a positive integer comes out as an uninitialised matrix with that
    many columns; with a negative integer OverflowError is raised. *)
Theorem C100_integer_refuted : forall W ld k t d n x m, offered d -> denotes t d -> 0 <= n ->
  (0 < x -> pcall W ld k "block" [VType t; VTuple [VInt n]; VInt x; map_object m] =
     one_call W "block2" [("r", VInt n); ("c", VInt x); ("m", map_object m)] (VObj "block2" d k)) /\
  (x < 0 -> pcall W ld k "block" [VType t; VTuple [VInt n]; VInt x; map_object m] = Raises "OverflowError" []).
Proof. intros. split; intros; [apply vector_int | eapply vector_neg]; eassumption. Qed.

(** Defect: a shape of three lengths is accepted and gives a matrix of the first two, filled with the third. *)
Theorem C100_tensor_refuted : forall W ld k t d n0 n1 n2 m, offered d -> denotes t d ->
  0 <= n0 -> 0 <= n1 -> 0 <= n2 < 2147483648 ->
  pcall W ld k "block" [VType t; VTuple [VInt n0; VInt n1; VInt n2]; map_object m] =
  one_call W "block2_init" [("r", VInt n0); ("c", VInt n1); ("value", VInt n2); ("m", map_object m)] (VObj "block2" d k).
Proof. exact tensor_plain. Qed.

(** Defect: no distributed block of double-precision complex numbers can be made: the name of the extension module
    with these blocks lacks the underscore that it is looked up with. *)
Theorem C100_complex_refuted : forall W ld k t shape m, denotes t C128 ->
  pcall W ld k "block" [VType t; shape; map_object m] = Raises "AttributeError" [].
Proof. exact cd_missing. Qed.

(** Defect: the documented form block(array, map) always raises UnboundLocalError: the type of the array is never
    asked for. *)
Theorem C100_array_refuted : forall W ld k i d shape m,
  pcall W ld k "block" [VArray i d shape; map_object m] = Raises "UnboundLocalError" [].
Proof. exact array_unbound. Qed.

(** Defect: subblock always raises AttributeError on distributed blocks, because the C++ functions it calls are not
    exported. *)
Theorem C100_subblock_refuted : forall W ld k D d i s s', offered d ->
  pcall W ld k "subblock" [distributed D d i; VTuple [VSlice s]] = Raises "AttributeError" [] /\
  pcall W ld k "subblock" [distributed D d i; VTuple [VSlice s; VSlice s']] = Raises "AttributeError" [].
Proof. intros. split; [apply subblock1 | apply subblock2]; assumption. Qed.

Print Assumptions C100_plain.
Print Assumptions C100_filled_partial.
Print Assumptions C100_unfit.
Print Assumptions C100_zero_refuted.
Print Assumptions C100_integer_refuted.
Print Assumptions C100_tensor_refuted.
Print Assumptions C100_complex_refuted.
Print Assumptions C100_array_refuted.
Print Assumptions C100_subblock_refuted.
