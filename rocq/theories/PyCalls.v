(** Specification of the Python interface: what a call should come to. *)
From Coq Require Import String List ZArith Bool.
From Verif Require Import PyLang PyProg.
Import ListNotations.
Local Open Scope string_scope.
Local Open Scope Z_scope.

(** Python's vectors and matrices over the block with identity [i]. *)
Definition vec (i : Z) (d : dt) (n : Z) : val :=
  VInst "vsip.vector" "vector" [("block", VBlock i d [n]); ("dtype", VType (Dtype d))].
Definition mat (i : Z) (d : dt) (r c : Z) : val :=
  VInst "vsip.matrix" "matrix" [("block", VBlock i d [r; c]); ("dtype", VType (Dtype d))].

Definition is_real (d : dt) : Prop := d = F32 \/ d = F64.
Definition is_complex (d : dt) : Prop := d = C64 \/ d = C128.
(** The Python names for an element type. *)
Definition names (t : tyobj) (d : dt) : Prop :=
  match d with
  | F32 => t = NpType F32 \/ t = Dtype F32
  | F64 => t = TyFloat \/ t = NpType F64 \/ t = Dtype F64
  | C128 => t = TyComplex \/ t = NpType C128 \/ t = Dtype C128
  | _ => False
  end.
(** The complex type over a real one. *)
Definition complex_over (d : dt) : dt := match d with F32 => C64 | _ => C128 end.
(** The real type under a complex one. *)
Definition real_under (d : dt) : dt := match d with C64 => F32 | _ => F64 end.
(** The extension module that exports the blocks of an element type. *)
Definition block_module (d : dt) : string :=
  match d with
  | F32 => "vsip._block_f" | F64 => "vsip._block_d" | C64 => "vsip._block_cf" | C128 => "vsip._block_cd"
  | I32 => "vsip._block_i" | B8 => "vsip._block_b" | I64 => ""
  end.

Definition calls := list (string * list (string * val)).
(** A call of the C++ function [f] with these arguments for these parameters, after the calls [pre]: if
    it throws, Python sees an exception, otherwise [k] comes next. *)
Definition calling (W : world) (f : string) (args : list (string * val)) (pre : calls) (k : calls -> outcome) : outcome :=
  match w_ok W {| ev_fun := f; ev_args := args |} with
  | None => Raises "RuntimeError" (pre ++ [(f, args)])
  | Some _ => k (pre ++ [(f, args)])%list
  end.
(** The same for a function that answers whether it succeeded. *)
Definition asking (W : world) (f : string) (args : list (string * val)) (pre : calls) (yes no : calls -> outcome) : outcome :=
  match w_ok W {| ev_fun := f; ev_args := args |} with
  | None => Raises "RuntimeError" (pre ++ [(f, args)])
  | Some true => yes (pre ++ [(f, args)])%list
  | Some false => no (pre ++ [(f, args)])%list
  end.
(** The number a C++ function returns. *)
Definition number_from (W : world) (f : string) (args : list (string * val)) : Z := w_num W {| ev_fun := f; ev_args := args |}.

(** A new block for a result. *)
Definition new_vector (W : world) (n : Z) (k : calls -> outcome) : outcome := calling W "block" [("l", VInt n)] [] k.
Definition new_matrix (W : world) (r c : Z) (k : calls -> outcome) : outcome := calling W "block" [("r", VInt r); ("c", VInt c)] [] k.
Definition index_from (W : world) (f : string) (args : list (string * val)) : Z := w_index W {| ev_fun := f; ev_args := args |}.
