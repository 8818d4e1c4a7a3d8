(** Distributed blocks from Python: python/src/parallel/block.py as a program of [PyLang.v], and the
    functions that the extension modules of python/src/parallel export.  A Map object from
    parallel/map.cpp is a value [VObj "map" I32 i] (the element type has no meaning there).  That a C++
    function is called and with which arguments is modelled, not what it does. *)
From Coq Require Import String List ZArith Bool.
From Verif Require Import PyLang PyProg.
Import ListNotations.
Local Open Scope string_scope.
Local Open Scope Z_scope.

(** python/src/parallel/block_api.hpp 45-47 with python/src/block_api.hpp 65-72, 105-112: the constructors that
    define_distributed_block exports, for D = 1 and then D = 2 (parallel/_block_f.cpp and the like).
    Conversion from arrays and subblocks are commented out (block_api.hpp 48-57). *)
Definition a_map : nty := NObj "map" I32.
Definition pblock_ext (d : dt) : list (string * list overload) :=
  [("block",
    [ov "block1" [("l", NLen); ("m", a_map)] (fun _ => RObj "block1" d);
     ov "block1_init" [("l", NLen); ("value", elem d); ("m", a_map)] (fun _ => RObj "block1" d);
     ov "block2" [("r", NLen); ("c", NLen); ("m", a_map)] (fun _ => RObj "block2" d);
     ov "block2_init" [("r", NLen); ("c", NLen); ("value", elem d); ("m", a_map)] (fun _ => RObj "block2" d)])].
(** The modules: one for each file (python/src/Makefile.in 57-61).  That of block_cd.cpp is named block_cd, without
    the underscore. *)
Definition pmodules : list (string * list (string * list overload)) :=
  (family "vsip.parallel._block" [C64; F64; F32; I32] pblock_ext ++ [("vsip.parallel.block_cd", pblock_ext C128)])%list.
Definition pext (m : string) : option (list (string * list overload)) := assoc m pmodules.
(** block_api.hpp 25-36: no constructor or method is called by the modelled program. *)
Definition pmethods (c : string) (d : dt) : option (list (string * list overload) * list string) := Some ([], []).

(** python/src/parallel/block.py 12-67.  The docstrings are left out; numpy.array(array, copy=False) is
    modelled as numpy.array(array). *)
Definition pblock_mod : list (string * gdef) :=
  [("import_module", GVal (VPrim "import_module")); ("numpy", GVal (VMod "numpy"));
   ("block", GFun (defstar []
      [SAssign "array" (EVal VNone); SAssign "value" (EVal VNone);
       SIf (EEq ("len" @("args" : expr)) (num 2))
         [SAssign "array" (EIdx "args" (num 0)); SAssign "map" (EIdx "args" (num 1));
          SAssign "array" ("numpy" #. "array" @("array" : expr));
          SAssign "shape" ("array" #. "shape")]
         [SIf (EEq ("len" @("args" : expr)) (num 3))
            [SAssign "dtype" (EIdx "args" (num 0)); SAssign "shape" (EIdx "args" (num 1)); SAssign "map" (EIdx "args" (num 2));
             SAssign "value" (EVal VNone)]
            [SIf (EEq ("len" @("args" : expr)) (num 4))
               [SAssign "dtype" (EIdx "args" (num 0)); SAssign "shape" (EIdx "args" (num 1));
                SAssign "value" (EIdx "args" (num 2)); SAssign "map" (EIdx "args" (num 3))]
               []]];
       SAssign "mod" ("import_module" @(str "vsip.parallel.block", "dtype" : expr));
       SIf (EIn (str "array") "kwargs") [SReturn ("mod" #. "block" @("array" : expr, "map" : expr))] [];
       let sh k := EIdx "shape" (num k) in
       SIf (EEq ("len" @("shape" : expr)) (num 1))
         [SReturn (EOr (EAnd "value" ("mod" #. "block" @(sh 0, "value" : expr, "map" : expr)))
                       ("mod" #. "block" @(sh 0, "map" : expr)))]
         [let sh k := EIdx "shape" (num k) in
          SIf (EEq ("len" @("shape" : expr)) (num 2))
            [SReturn (EOr (EAnd "value" ("mod" #. "block" @(sh 0, sh 1, "value" : expr, "map" : expr)))
                          ("mod" #. "block" @(sh 0, sh 1, "map" : expr)))]
            [let sh k := EIdx "shape" (num k) in
             SIf (EEq ("len" @("shape" : expr)) (num 3))
               [SReturn (EOr (EAnd "value" ("mod" #. "block" @(sh 0, sh 1, sh 2, "value" : expr, "map" : expr)))
                             ("mod" #. "block" @(sh 0, sh 1, sh 2, "map" : expr)))]
               [SRaise "ValueError"]]]]));
   ("subblock", GFun (def ["parent"; "slice"]
      [SAssign "dtype" ("parent" #. "dtype");
       SAssign "mod" ("import_module" @(str "vsip.parallel.block", "dtype" : expr));
       SIf (EEq ("len" @("slice" : expr)) (num 1))
         [SReturn ("mod" #. "subblock" @("parent" : expr, EIdx "slice" (num 0)))]
         [SIf (EEq ("len" @("slice" : expr)) (num 2))
            [SReturn ("mod" #. "subblock" @("parent" : expr, EIdx "slice" (num 0), EIdx "slice" (num 1)))]
            [SIf (EEq ("len" @("slice" : expr)) (num 3))
               [SReturn ("mod" #. "subblock" @("parent" : expr, EIdx "slice" (num 0), EIdx "slice" (num 1), EIdx "slice" (num 2)))]
               [SRaise "ValueError"]]]]))].
Definition pvsip : program := [("numpy", numpy_mod); ("vsip.parallel.block", pblock_mod)].

(** vsip.parallel.block.f(args), when the extension modules [ld] have been imported and [n] is the identity of
    the next new object. *)
Definition pcall (W : world) (ld : string -> bool) (n : Z) (f : string) (args : list val) : outcome :=
  outcome_of W (tree_of (call W pvsip pext pmethods depth (VFun "vsip.parallel.block" f) args []
    {| loaded := ld; next := n; events := [] |})).

(** * Specification *)

(** The Python names of the element types. *)
Definition denotes (t : tyobj) (d : dt) : Prop :=
  match d with
  | F32 | C64 => t = NpType d \/ t = Dtype d
  | F64 => t = TyFloat \/ t = NpType F64 \/ t = Dtype F64
  | C128 => t = TyComplex \/ t = NpType C128 \/ t = Dtype C128
  | I32 => t = TyInt \/ t = NpType I32 \/ t = Dtype I32
  | _ => False
  end.
(** The element types of distributed blocks other than double-precision complex. *)
Definition offered (d : dt) : Prop := d = F32 \/ d = F64 \/ d = I32 \/ d = C64.
(** Zero, in any of its Python types. *)
Definition zero (v : val) : Prop := v = VInt 0 \/ v = VNum 0 \/ v = VCplx 0.
(** A value that is no element: a fraction for integers, a complex number for real ones. *)
Definition unfit (d : dt) (v : val) : Prop :=
  (exists x, x <> 0 /\ v = VNum x /\ d = I32) \/ (exists x, x <> 0 /\ v = VCplx x /\ (d = I32 \/ d = F32 \/ d = F64)).
(** A map, and a distributed block: an object with the attribute dtype. *)
Definition map_object (i : Z) : val := VObj "map" I32 i.
Definition distributed (D : string) (d : dt) (i : Z) : val := VInst "vsip.parallel._block" D [("dtype", VType (Dtype d)); ("id", VInt i)].

(** The C++ function [f] called once with these arguments; if it does not throw the result is [v]. *)
Definition one_call (W : world) (f : string) (args : list (string * val)) (v : val) : outcome :=
  match w_ok W {| ev_fun := f; ev_args := args |} with
  | None => Raises "RuntimeError" [(f, args)]
  | Some _ => Returns v [(f, args)]
  end.
