(** The Python modules of /repo/python/src as programs of [PyLang.v], and the functions and classes that
    the extension modules (the .cpp and .hpp files there) export.  Doc strings and comments are left
    out; local imports of NumPy are written at module level. *)
From Coq Require Import String List ZArith Bool.
From Verif Require Import PyLang.
Import ListNotations.
Local Open Scope string_scope.
Local Open Scope Z_scope.

(** ** What C++ exports *)

Definition ov (name : string) (ps : list (string * nty)) (r : list val -> rkind) : overload :=
  {| c_name := name; c_params := ps; c_result := r |}.
Definition shape_of (v : val) : list Z := match v with VBlock _ _ sh | VArray _ _ sh => sh | _ => [] end.
Definition arg (k : nat) (vs : list val) : val := nth k vs VNone.
Definition len_of (v : val) : Z := match v with VSlice n => n | _ => int_of v end.
(** scalar_of<T>, complex<T>; how an element arrives from Python. *)
Definition scalar_of (d : dt) : dt := match d with C64 => F32 | C128 => F64 | _ => d end.
Definition complex_of (d : dt) : dt := match d with F32 => C64 | F64 => C128 | _ => d end.
Definition elem (d : dt) : nty :=
  match d with F32 | F64 => NReal | C64 | C128 => NCplx | I32 | I64 => NI32 | B8 => NBool end.
Definition number (d : dt) : rkind := match d with C64 | C128 => RCplx | _ => RNum end.

(** /repo/python/src/block_api.hpp:45-104, 176-215, 280-297 and the order of the definitions in
    define_block, 440-454, for D = 1 and then D = 2 (_block_d.cpp and the like).  The one-argument form takes
    any object and decides itself; its TypeError for one that is neither is here an ArgumentError. *)
Definition block_ext (d : dt) : list (string * list overload) :=
  let from_array := [ov "block" [("l", NLen)] (fun a => RBlock d [int_of (arg 0 a)]);
                     ov "block_from_array" [("o", NArr d)] (fun a => RBlock d (shape_of (arg 0 a)))] in
  [("block", ([ov "block" [("l", NLen); ("value", elem d)] (fun a => RBlock d [int_of (arg 0 a)])] ++ from_array ++
     [ov "block" [("r", NLen); ("c", NLen)] (fun a => RBlock d [int_of (arg 0 a); int_of (arg 1 a)]);
      ov "block" [("r", NLen); ("c", NLen); ("value", elem d)] (fun a => RBlock d [int_of (arg 0 a); int_of (arg 1 a)])] ++
     from_array)%list);
   ("subblock", [ov "subblock1" [("b", NBlk 1 d); ("s", NSlice)] (fun a => RBlock d [len_of (arg 1 a)]);
                 ov "subblock2" [("b", NBlk 2 d); ("i", NSlice); ("j", NSlice)]
                   (fun a => RBlock d [len_of (arg 1 a); len_of (arg 2 a)])])].

(** /repo/python/src/math/elementwise.hpp: the macros UNARY .. TERNARY (20-87) define overloads for
    vectors and matrices whose result is a new block of the first argument's shape; define_elementwise
    (152-212) and define_complex_elementwise (214-256) export them. *)
Definition unary_of (d r : dt) (f : string) : string * list overload :=
  (f, map (fun D => ov f [("b", NBlk D d)] (fun a => RBlock r (shape_of (arg 0 a)))) [1%nat; 2%nat]).
Definition binary_of (d r : dt) (f : string) : string * list overload :=
  (f, map (fun D => ov f [("b1", NBlk D d); ("b2", NBlk D d)] (fun a => RBlock r (shape_of (arg 0 a)))) [1%nat; 2%nat]).
Definition ternary_of (d r : dt) (f : string) : string * list overload :=
  (f, map (fun D => ov f [("b1", NBlk D d); ("b2", NBlk D d); ("b3", NBlk D d)]
                       (fun a => RBlock r (shape_of (arg 0 a)))) [1%nat; 2%nat]).
Definition elementwise_ext (d : dt) : list (string * list overload) :=
  (map (unary_of d d) ["acos"; "asin"; "atan"; "ceil"; "cos"; "cosh"; "exp"; "exp10"; "floor"; "log"; "log10"; "neg";
                       "recip"; "rsqrt"; "sin"; "sinh"; "sq"; "sqrt"; "tan"; "tanh"; "mag"; "magsq"] ++
   map (unary_of d (complex_of d)) ["euler"] ++
   map (unary_of d B8) ["is_finite"; "is_nan"; "is_normal"; "lnot"] ++
   map (binary_of d d) ["add"; "atan2"; "div"; "fmod"; "hypot"; "max"; "min"; "mul"; "pow"; "sub";
                        "maxmg"; "maxmgsq"; "minmg"; "minmgsq"] ++
   map (binary_of d B8) ["eq"; "ge"; "gt"; "land"; "le"; "lor"; "lt"; "lxor"; "ne"] ++
   map (ternary_of d d) ["am"; "expoavg"; "ite"; "ma"; "msb"; "sbm"])%list.
Definition complex_elementwise_ext (d : dt) : list (string * list overload) :=
  (map (unary_of d d) ["conj"; "cos"; "cosh"; "exp"; "log"; "log10"; "neg"; "recip"; "rsqrt"; "sin"; "sinh"; "sq";
                       "sqrt"; "tan"; "tanh"] ++
   map (unary_of d (scalar_of d)) ["arg"; "imag"; "real"; "mag"; "magsq"] ++
   map (unary_of d B8) ["is_finite"; "is_nan"; "is_normal"] ++
   map (binary_of d d) ["add"; "div"; "jmul"; "mul"; "pow"; "sub"] ++
   map (binary_of d (scalar_of d)) ["maxmg"; "maxmgsq"] ++
   map (binary_of d B8) ["eq"; "ne"] ++
   map (ternary_of d d) ["am"; "expoavg"; "ma"; "msb"; "sbm"])%list.

(** /repo/python/src/math/reductions.hpp:21-56. *)
Definition reductions_ext (d : dt) : list (string * list overload) :=
  (map (fun f => (f, map (fun D => ov f [("b", NBlk D d)] (fun _ => RNum)) [1%nat; 2%nat])) ["meanval"; "sumval"] ++
   map (fun f => (f, map (fun D => ov f [("b", NBlk D d)] (fun _ => RNumInt)) [1%nat; 2%nat])) ["maxval"; "minval"])%list.

(** /repo/python/src/math/matvec_api.hpp:21-118; herm for complex types only (99-106). *)
Definition rows_of (v : val) : Z := nth 0 (shape_of v) 0.
Definition cols_of (v : val) : Z := nth 1 (shape_of v) 0.
Definition matvec_ext (d : dt) : list (string * list overload) :=
  ([("dot", [ov "dot" [("b1", NBlk 1 d); ("b2", NBlk 1 d)] (fun _ => number d)]);
    ("trans", [ov "trans" [("b", NBlk 2 d)] (fun a => RBlock d [cols_of (arg 0 a); rows_of (arg 0 a)])]);
    ("prod", [ov "vmprod" [("a", NBlk 1 d); ("b", NBlk 2 d)] (fun a => RBlock d [cols_of (arg 1 a)]);
              ov "mvprod" [("a", NBlk 2 d); ("b", NBlk 1 d)] (fun a => RBlock d [rows_of (arg 0 a)]);
              ov "mmprod" [("a", NBlk 2 d); ("b", NBlk 2 d)] (fun a => RBlock d [rows_of (arg 0 a); cols_of (arg 1 a)])]);
    ("vmmul", [ov "vmmul" [("axis", NI32); ("a", NBlk 1 d); ("b", NBlk 2 d)]
                 (fun a => RBlock d [rows_of (arg 2 a); cols_of (arg 2 a)])])] ++
   match d with
   | C64 | C128 => [("herm", [ov "herm" [("b", NBlk 2 d)] (fun a => RBlock d [cols_of (arg 0 a); rows_of (arg 0 a)])])]
   | _ => []
   end)%list.

(** /repo/python/src/math/solvers/solvers.hpp:20-49 and the constructors and methods of the solver
    classes: lud 51-83, chold 85-108, qrd 110-168, svd 174-292. *)
Definition none (_ : list val) : rkind := RNone.
Definition answer (_ : list val) : rkind := RBool.
Definition covsol_ext (d : dt) := [("covsol", [ov "covsol" [("a", NBlk 2 d); ("b", NBlk 2 d); ("x", NBlk 2 d)] none])].
Definition llsqsol_ext (d : dt) := [("llsqsol", [ov "llsqsol" [("a", NBlk 2 d); ("b", NBlk 2 d); ("x", NBlk 2 d)] none])].
Definition toepsol_ext (d : dt) :=
  [("toepsol", [ov "toepsol" [("t", NBlk 1 d); ("b", NBlk 1 d); ("y", NBlk 1 d); ("x", NBlk 1 d)] none])].
Definition lud_ext (d : dt) := [("lud", [ov "lud" [("l", NLen)] (fun _ => RObj "lud" d)])].
Definition lud_methods (d : dt) : list (string * list overload) :=
  [("decompose", [ov "lud::decompose" [("self", NObj "lud" d); ("b", NBlk 2 d)] answer]);
   ("solve", [ov "lud::solve" [("self", NObj "lud" d); ("op", NEnum "mat_op"); ("b", NBlk 2 d); ("x", NBlk 2 d)] answer])].
Definition chold_ext (d : dt) := [("chold", [ov "chold" [("uplo", NEnum "mat_uplo"); ("l", NLen)] (fun _ => RObj "chold" d)])].
Definition chold_methods (d : dt) : list (string * list overload) :=
  [("decompose", [ov "chold::decompose" [("self", NObj "chold" d); ("b", NBlk 2 d)] answer]);
   ("solve", [ov "chold::solve" [("self", NObj "chold" d); ("b", NBlk 2 d); ("x", NBlk 2 d)] answer])].
Definition qrd_ext (d : dt) :=
  [("qrd", [ov "qrd" [("rows", NLen); ("cols", NLen); ("s", NEnum "storage")] (fun _ => RObj "qrd" d)])].
Definition qrd_methods (d : dt) : list (string * list overload) :=
  [("decompose", [ov "qrd::decompose" [("self", NObj "qrd" d); ("b", NBlk 2 d)] answer]);
   ("prodq", [ov "qrd::prodq" [("self", NObj "qrd" d); ("op", NEnum "mat_op"); ("side", NEnum "product_side");
                               ("b", NBlk 2 d); ("x", NBlk 2 d)] answer]);
   ("rsol", [ov "qrd::rsol" [("self", NObj "qrd" d); ("op", NEnum "mat_op"); ("b", NBlk 2 d); ("alpha", elem d); ("x", NBlk 2 d)] answer]);
   ("covsol", [ov "qrd::covsol" [("self", NObj "qrd" d); ("b", NBlk 2 d); ("x", NBlk 2 d)] answer]);
   ("lsqsol", [ov "qrd::lsqsol" [("self", NObj "qrd" d); ("b", NBlk 2 d); ("x", NBlk 2 d)] answer])].
Definition svd_ext (d : dt) :=
  [("svd", [ov "svd" [("rows", NLen); ("cols", NLen); ("ust", NEnum "storage"); ("vst", NEnum "storage")] (fun _ => RObj "svd" d)])].
Definition svd_methods (d : dt) : list (string * list overload) :=
  [("decompose", [ov "svd::decompose" [("self", NObj "svd" d); ("b", NBlk 2 d); ("dest", NBlk 1 (scalar_of d))] answer]);
   ("produ", [ov "svd::produ" [("self", NObj "svd" d); ("op", NEnum "mat_op"); ("side", NEnum "product_side"); ("b", NBlk 2 d); ("x", NBlk 2 d)] answer]);
   ("prodv", [ov "svd::prodv" [("self", NObj "svd" d); ("op", NEnum "mat_op"); ("side", NEnum "product_side"); ("b", NBlk 2 d); ("x", NBlk 2 d)] answer]);
   ("u", [ov "svd::u" [("self", NObj "svd" d); ("low", NLen); ("high", NLen); ("dest", NBlk 2 d)] answer]);
   ("v", [ov "svd::v" [("self", NObj "svd" d); ("low", NLen); ("high", NLen); ("dest", NBlk 2 d)] answer])].

(** /repo/python/src/signal: conv.hpp:60-123, corr.hpp:55-88, fft.hpp:138-241, fftm.hpp:149-281,
    fir.hpp:61-117, iir.hpp:56-84, freqswap.hpp with _freqswap_d.cpp:13-14, window.hpp:19-58 with
    _window_d.cpp:14-17. *)
Definition conv_ext (d : dt) :=
  [("conv", [ov "create_conv" [("c", NBlk 1 d); ("s", NEnum "symmetry"); ("i", NLen); ("d", NLen); ("r", NEnum "support_region");
                               ("n", NU32); ("h", NEnum "alg_hint")] (fun _ => RObj "conv" d)])].
Definition conv_methods (d : dt) : list (string * list overload) :=
  [("__call__", [ov "conv::op" [("self", NObj "conv" d); ("i", NBlk 1 d); ("o", NBlk 1 d)] none])].
Definition corr_ext (d : dt) :=
  [("corr", [ov "create_corr" [("r", NLen); ("i", NLen); ("s", NEnum "support_region"); ("n", NU32); ("h", NEnum "alg_hint")]
               (fun _ => RObj "corr" d)])].
Definition corr_methods (d : dt) : list (string * list overload) :=
  [("__call__", [ov "corr::op" [("self", NObj "corr" d); ("b", NEnum "bias"); ("r", NBlk 1 d); ("i", NBlk 1 d); ("o", NBlk 1 d)] none])].
Definition fft_ext (d : dt) :=
  let ps := [("length", NLen); ("scale", NReal); ("n", NU32); ("h", NEnum "alg_hint")] in
  [("fft", [ov "create_fft" ps (fun _ => RObj "fft" d)]); ("ifft", [ov "create_ifft" ps (fun _ => RObj "ifft" d)])].
(* Real transforms take a real block one way and a complex one the other and have no in-place form. *)
Definition fft_methods (inv : bool) (c : string) (D : nat) (d : dt) : list (string * list overload) :=
  let i := if inv then complex_of d else d in
  let o := if inv then d else complex_of d in
  [("__call__", (ov (c ++ "::op") [("self", NObj c d); ("i", NBlk D i); ("o", NBlk D o)] none ::
      match d with C64 | C128 => [ov (c ++ "::ip") [("self", NObj c d); ("io", NBlk D d)] none] | _ => [] end))].
Definition fftm_ext (d : dt) :=
  let ps := [("rows", NLen); ("cols", NLen); ("scale", NReal); ("a", NI32); ("n", NU32); ("h", NEnum "alg_hint")] in
  [("fftm", [ov "create_fftm" ps (fun _ => RObj "fftm" d)]); ("ifftm", [ov "create_ifftm" ps (fun _ => RObj "ifftm" d)])].
Definition fir_ext (d : dt) :=
  [("fir", [ov "create_fir" [("k", NBlk 1 d); ("s", NEnum "symmetry"); ("l", NLen); ("d", NLen); ("c", NEnum "obj_state");
                             ("n", NU32); ("h", NEnum "alg_hint")] (fun _ => RObj "fir" d)])].
Definition fir_methods (d : dt) : list (string * list overload) :=
  [("reset", [ov "fir::reset" [("self", NObj "fir" d)] none]);
   ("__call__", [ov "fir::op" [("self", NObj "fir" d); ("i", NBlk 1 d); ("o", NBlk 1 d)] none])].
Definition iir_ext (d : dt) :=
  [("iir", [ov "create_iir" [("a", NBlk 2 d); ("b", NBlk 2 d); ("l", NLen); ("s", NEnum "obj_state"); ("n", NU32); ("h", NEnum "alg_hint")]
              (fun _ => RObj "iir" d)])].
Definition iir_methods (d : dt) : list (string * list overload) :=
  [("reset", [ov "iir::reset" [("self", NObj "iir" d)] none]);
   ("__call__", [ov "iir::op" [("self", NObj "iir" d); ("i", NBlk 1 d); ("o", NBlk 1 d)] none])].
Definition freqswap_ext (d : dt) :=
  [("freqswap", map (fun D => ov "freqswap" [("in", NBlk D d); ("out", NBlk D d)] none) [1%nat; 2%nat])].
Definition window_ext (d : dt) : list (string * list overload) :=
  let r := fun a => RBlock d [int_of (arg 0 a)] in
  [("blackman", [ov "blackman" [("len", NLen)] r]); ("cheby", [ov "cheby" [("len", NLen); ("ripple", NReal)] r]);
   ("hanning", [ov "hanning" [("len", NLen)] r]); ("kaiser", [ov "kaiser" [("len", NLen); ("beta", NReal)] r])].

(** /repo/python/src/selgen/clip.hpp:18-43. *)
Definition clip_ext (d : dt) : list (string * list overload) :=
  [("clip", map (fun D => ov "clip" [("bin", NBlk D d); ("bout", NBlk D d); ("lt", elem d); ("ut", elem d); ("lc", elem d); ("uc", elem d)] none)
      [1%nat; 2%nat]);
   ("invclip", map (fun D => ov "invclip" [("bin", NBlk D d); ("bout", NBlk D d); ("lt", elem d); ("mt", elem d); ("ut", elem d);
                                           ("lc", elem d); ("uc", elem d)] none) [1%nat; 2%nat])].

(** /repo/python/src/random.hpp:19-75. *)
Definition rand_ext (d : dt) := [("rand", [ov "rand" [("seed", NLen); ("portable", NBool)] (fun _ => RObj "rand" d)])].
Definition rand_methods (d : dt) : list (string * list overload) :=
  map (fun f => (f, [ov ("rand::" ++ f) [("self", NObj "rand" d)] (fun _ => number d);
                     ov ("rand::" ++ f) [("self", NObj "rand" d); ("l", NLen)] (fun a => RBlock d [int_of (arg 1 a)]);
                     ov ("rand::" ++ f) [("self", NObj "rand" d); ("r", NLen); ("c", NLen)]
                       (fun a => RBlock d [int_of (arg 1 a); int_of (arg 2 a)])]))
    ["randu"; "randn"].

(** The extension modules that exist: the .cpp files of /repo/python/src and its subdirectories. *)
Definition family (prefix : string) (ds : list dt) (f : dt -> list (string * list overload)) : list (string * list (string * list overload)) :=
  map (fun d => (prefix ++ suffix d, f d)) ds.
Definition ext_modules : list (string * list (string * list overload)) :=
  (family "vsip._block" [B8; C128; C64; F64; F32; I32] block_ext ++
   family "vsip._rand" [C128; F64; F32] rand_ext ++
   family "vsip.math._elementwise" [F64; F32] elementwise_ext ++
   family "vsip.math._elementwise" [C128; C64] complex_elementwise_ext ++
   family "vsip.math._matvec" [C128; C64; F64; F32] matvec_ext ++
   family "vsip.math._reductions" [F64; F32] reductions_ext ++
   family "vsip.math.solvers._chold" [F64; F32] chold_ext ++
   family "vsip.math.solvers._covsol" [F64; F32] covsol_ext ++
   family "vsip.math.solvers._llsqsol" [F64; F32] llsqsol_ext ++
   family "vsip.math.solvers._lud" [F64; F32] lud_ext ++
   family "vsip.math.solvers._qrd" [F64; F32] qrd_ext ++
   family "vsip.math.solvers._svd" [F64; F32] svd_ext ++
   family "vsip.math.solvers._toepsol" [F64; F32] toepsol_ext ++
   family "vsip.selgen._clip" [F64; F32] clip_ext ++
   family "vsip.signal._conv" [C128; C64; F64; F32] conv_ext ++
   family "vsip.signal._corr" [C128; C64; F64; F32] corr_ext ++
   family "vsip.signal._fft" [C128; C64; F64; F32] fft_ext ++
   family "vsip.signal._fftm" [C128; C64; F64; F32] fftm_ext ++
   family "vsip.signal._fir" [F64; F32] fir_ext ++
   family "vsip.signal._freqswap" [F64; F32] freqswap_ext ++
   family "vsip.signal._iir" [C128; F64; F32] iir_ext ++
   family "vsip.signal._window" [F64; F32] window_ext)%list.
Definition ext (m : string) : option (list (string * list overload)) := assoc m ext_modules.

(** Methods and properties of the exported classes. *)
Definition classes (d : dt) : list (string * (list (string * list overload) * list string)) :=
  [("lud", (lud_methods d, [])); ("chold", (chold_methods d, [])); ("qrd", (qrd_methods d, [])); ("svd", (svd_methods d, []));
   ("conv", (conv_methods d, ["kernel_size"; "symmetry"; "support"; "decimation"; "input_size"; "output_size"]));
   ("corr", (corr_methods d, ["reference_size"; "support"; "input_size"; "output_size"]));
   ("fft", (fft_methods false "fft" 1 d, ["input_size"; "output_size"; "scale"; "forward"]));
   ("ifft", (fft_methods true "ifft" 1 d, ["input_size"; "output_size"; "scale"; "forward"]));
   ("fftm", (fft_methods false "fftm" 2 d, ["input_size"; "output_size"; "scale"; "forward"; "axis"]));
   ("ifftm", (fft_methods true "ifftm" 2 d, ["input_size"; "output_size"; "scale"; "forward"; "axis"]));
   ("fir", (fir_methods d, ["kernel_size"; "input_size"; "output_size"; "decimation"; "symmetry"; "state"]));
   ("iir", (iir_methods d, ["kernel_size"; "input_size"; "state"]));
   ("rand", (rand_methods d, []))].
Definition methods (c : string) (d : dt) : option (list (string * list overload) * list string) := assoc c (classes d).

(** ** The Python modules *)
Definition str (x : string) : expr := EVal (VStr x).
Definition num (z : Z) : expr := EVal (VInt z).
Definition EIsType (x : string) (t : val) : expr := EEq (EName x) (EVal t).
Definition def (ps : list string) (b : list stmt) : fn :=
  {| f_params := map (fun p => (p, None)) ps; f_star := None; f_kw := None; f_body := b |}.
Definition defd (ps : list (string * option val)) (b : list stmt) : fn := {| f_params := ps; f_star := None; f_kw := None; f_body := b |}.
Definition defstar (ps : list string) (b : list stmt) : fn :=
  {| f_params := map (fun p => (p, None)) ps; f_star := Some "args"; f_kw := Some "kwargs"; f_body := b |}.
Definition kwcall (f : expr) (x : string) (e : expr) : expr := ECall f [] [(x, e)].
Definition self_ (a : string) : expr := EName "self" #. a.

(** NumPy: the names used. *)
Definition numpy_mod : list (string * gdef) :=
  [("float32", GVal (VType (NpType F32))); ("float64", GVal (VType (NpType F64)));
   ("array", GVal (VPrim "numpy.array")); ("tensordot", GVal (VPrim "numpy.tensordot")); ("kron", GVal (VPrim "numpy.kron"))].

(** /repo/python/src/_block.py:11-67. *)
Definition block_mod : list (string * gdef) :=
  [("import_module", GVal (VPrim "import_module")); ("numpy", GVal (VMod "numpy"));
   ("block", GFun (defstar []
      [SIf "args"
         [SAssign "dtype" (EIdx "args" (num 0));
          SAssign "shape" (EIdx "args" (num 1));
          SAssign "value" (EOr (EAnd (EEq ("len" @("args" : expr)) (num 3)) (EIdx "args" (num 2))) (EVal VNone))]
         [SIf (EIn (str "array") "kwargs")
            [SAssign "array" ("numpy" #. "array" @(EIdx "kwargs" (str "array")));
             SAssign "dtype" ("array" #. "dtype")] []];
       SAssign "mod" ("import_module" @(str "vsip.block", "dtype" : expr));
       SIf (EIn (str "array") "kwargs") [SReturn ("mod" #. "block" @("array" : expr))] [];
       let sh k := EIdx "shape" (num k) in
       SIf (EEq ("len" @("shape" : expr)) (num 1))
         [SReturn (EOr (EAnd "value" ("mod" #. "block" @(sh 0, "value" : expr))) ("mod" #. "block" @(sh 0)))]
         [let sh k := EIdx "shape" (num k) in
          SIf (EEq ("len" @("shape" : expr)) (num 2))
            [SReturn (EOr (EAnd "value" ("mod" #. "block" @(sh 0, sh 1, "value" : expr))) ("mod" #. "block" @(sh 0, sh 1)))]
            [let sh k := EIdx "shape" (num k) in
             SIf (EEq ("len" @("shape" : expr)) (num 3))
               [SReturn (EOr (EAnd "value" ("mod" #. "block" @(sh 0, sh 1, sh 2, "value" : expr))) ("mod" #. "block" @(sh 0, sh 1, sh 2)))]
               [SRaise "ValueError"]]]]));
   ("subblock", GFun (def ["parent"; "slice"]
      [SAssign "dtype" ("parent" #. "dtype");
       SAssign "mod" ("import_module" @(str "vsip.block", "dtype" : expr));
       SIf (EEq ("len" @("slice" : expr)) (num 1))
         [SReturn ("mod" #. "subblock" @("parent" : expr, EIdx "slice" (num 0)))]
         [SIf (EEq ("len" @("slice" : expr)) (num 2))
            [SReturn ("mod" #. "subblock" @("parent" : expr, EIdx "slice" (num 0), EIdx "slice" (num 1)))]
            [SIf (EEq ("len" @("slice" : expr)) (num 3))
               [SReturn ("mod" #. "subblock" @("parent" : expr, EIdx "slice" (num 0), EIdx "slice" (num 1), EIdx "slice" (num 2)))]
               [SRaise "ValueError"]]]]))].

(** /repo/python/src/vector.py:14-65, 239-252 (the subscript with a slice only: [subvector]). *)
Definition vector_mod : list (string * gdef) :=
  [("_block", GVal (VMod "vsip._block"));
   ("vector", GClass
      [("__init__", GFun (defstar ["self"]
          [SAttr "self" "block" (EVal VNone);
           SAttr "self" "dtype" (EVal VNone);
           SIf "args"
             [SIf (EEq ("len" @("args" : expr)) (num 2))
                [SAttr "self" "block" ("_block" #. "block" @(EIdx "args" (num 0), ETuple [EIdx "args" (num 1)]))]
                [SIf (EEq ("len" @("args" : expr)) (num 3))
                   [SAttr "self" "block" ("_block" #. "block" @(EIdx "args" (num 0), ETuple [EIdx "args" (num 1)], EIdx "args" (num 2)))]
                   [SRaise "ValueError"]]]
             [SIf (EIn (str "block") "kwargs")
                [SAttr "self" "block" (EIdx "kwargs" (str "block"))]
                [SIf (EIn (str "array") "kwargs")
                   [SAttr "self" "block" (kwcall ("_block" #. "block") "array" (EIdx "kwargs" (str "array")))]
                   [SRaise "ValueError"]]];
           SAttr "self" "dtype" (self_ "block" #. "dtype")]));
       ("length", GFun (def ["self"] [SReturn (self_ "block" #. "size" @(num 1, num 0))]));
       ("size", GFun (def ["self"] [SReturn (self_ "length" @())]));
       ("shape", GProp (def ["self"] [SReturn (ETuple [self_ "length" @()])]));
       ("__getitem__", GFun (def ["self"; "i"]
          [SReturn (kwcall "vector" "block" ("_block" #. "subblock" @(self_ "block", ETuple [EName "i"])))]))])].

(** /repo/python/src/matrix.py:15-68. *)
Definition matrix_mod : list (string * gdef) :=
  [("_block", GVal (VMod "vsip._block")); ("vector", GVal (VClass "vsip.vector" "vector"));
   ("matrix", GClass
      [("__init__", GFun (defstar ["self"]
          [SAttr "self" "block" (EVal VNone);
           SAttr "self" "dtype" (EVal VNone);
           SIf "args"
             [SIf (EEq ("len" @("args" : expr)) (num 3))
                [SAttr "self" "block" ("_block" #. "block" @(EIdx "args" (num 0), ETuple [EIdx "args" (num 1); EIdx "args" (num 2)]))]
                [SIf (EEq ("len" @("args" : expr)) (num 4))
                   [SAttr "self" "block" ("_block" #. "block" @(EIdx "args" (num 0), ETuple [EIdx "args" (num 1); EIdx "args" (num 2)],
                                                               EIdx "args" (num 3)))]
                   [SRaise "ValueError"]]]
             [SIf (EIn (str "block") "kwargs")
                [SAttr "self" "block" (EIdx "kwargs" (str "block"))]
                [SIf (EIn (str "array") "kwargs")
                   [SAttr "self" "block" (kwcall ("_block" #. "block") "array" (EIdx "kwargs" (str "array")))]
                   [SRaise "ValueError"]]];
           SAttr "self" "dtype" (self_ "block" #. "dtype")]));
       ("rows", GFun (def ["self"] [SReturn (self_ "block" #. "size" @(num 2, num 0))]));
       ("cols", GFun (def ["self"] [SReturn (self_ "block" #. "size" @(num 2, num 1))]));
       ("shape", GProp (def ["self"] [SReturn (ETuple [self_ "rows" @(); self_ "cols" @()])]));
       ("size", GFun (def ["self"; "d"] [SReturn (EOr (EAnd (EEq "d" (num 0)) (self_ "rows" @())) (self_ "cols" @()))]))])].

Definition common : list (string * gdef) :=
  [("vector", GVal (VClass "vsip.vector" "vector")); ("matrix", GVal (VClass "vsip.matrix" "matrix"));
   ("import_module", GVal (VPrim "import_module")); ("numpy", GVal (VMod "numpy"))].

(** /repo/python/src/math/elementwise.py:12-66. *)
Definition wrap1 (f : string) : string * gdef := (f, GFun (def ["a"] [SReturn ("unary" @(str f, "a" : expr))])).
Definition wrap2 (f : string) : string * gdef :=
  (f, GFun (def ["a1"; "a2"] [SReturn ("binary" @(str f, "a1" : expr, "a2" : expr))])).
Definition wrap3 (f : string) : string * gdef :=
  (f, GFun (def ["a1"; "a2"; "a3"] [SReturn ("ternary" @(str f, "a1" : expr, "a2" : expr, "a3" : expr))])).
Definition elementwise_mod : list (string * gdef) :=
  (common ++
   [("unary", GFun (def ["func"; "a"]
       [SAssign "b" ("a" #. "block");
        SAssign "m" ("import_module" @(str "vsip.math.elementwise", "b" #. "dtype"));
        SAssign "f" ("getattr" @("m" : expr, "func" : expr));
        SAssign "v" ("a" #. "__class__");
        SReturn (kwcall "v" "block" ("f" @("b" : expr)))]));
    ("binary", GFun (def ["func"; "a1"; "a2"]
       [SAssign "b1" ("a1" #. "block");
        SAssign "b2" ("a2" #. "block");
        SIf (EEq ("b1" #. "dtype") ("b2" #. "dtype"))
          [SAssign "m" ("import_module" @(str "vsip.math.elementwise", "b1" #. "dtype"))]
          [SRaise "ValueError"];
        SAssign "f" ("getattr" @("m" : expr, "func" : expr));
        SAssign "v" ("a1" #. "__class__");
        SReturn (kwcall "v" "block" ("f" @("b1" : expr, "b2" : expr)))]));
    ("ternary", GFun (def ["func"; "a1"; "a2"; "a3"]
       [SAssign "b1" ("a1" #. "block");
        SAssign "b2" ("a2" #. "block");
        SAssign "b3" ("a3" #. "block");
        SIf (EAnd (EEq ("b1" #. "dtype") ("b2" #. "dtype")) (EEq ("b2" #. "dtype") ("b3" #. "dtype")))
          [SAssign "m" ("import_module" @(str "vsip.math.elementwise", "b1" #. "dtype"))]
          [SRaise "ValueError"];
        SAssign "f" ("getattr" @("m" : expr, "func" : expr));
        SAssign "v" ("a1" #. "__class__");
        SReturn (kwcall "v" "block" ("f" @("b1" : expr, "b2" : expr, "b3" : expr)))]))] ++
   map wrap1 ["acos"; "arg"; "asin"; "atan"; "ceil"; "cos"; "cosh"; "euler"; "exp"; "exp10"; "floor"; "log"; "log10"; "magsq"; "neg"; "sin"] ++
   map wrap2 ["atan2"; "eq"; "mul"] ++ map wrap3 ["am"; "ite"])%list.

(** The _import_module functions of reductions.py, toepsol.py, fir.py, freqswap.py (f and d), of iir.py and
    fftm.py (also "dtype in (complex,)"), and of fft.py and corr.py ("dtype in (complex)"): for example
    /repo/python/src/signal/fir.py:11-21, iir.py:11-24, fft.py:12-25. *)
Definition import_own (pkg base : string) (cplx : option bool) : fn :=
  let fetch x := [SAssign "_temp" ("__import__" @(str pkg, str (base ++ x))); SAssign "mod" ("_temp" #. (base ++ x))] in
  def ["dtype"]
    [SAssign "mod" (EVal VNone);
     SIf (EEq "dtype" ("numpy" #. "float32"))
       (fetch "_f")
       [SIf (EIn "dtype" (ETuple [EName "float"; "numpy" #. "float64"]))
          (fetch "_d")
          match cplx with
          | None => []
          | Some true => [SIf (EIn "dtype" (ETuple [EName "complex"])) (fetch "_cd") []]
          | Some false => [SIf (EIn "dtype" "complex") (fetch "_cd") []]
          end];
     SIf (ENot "mod") [SRaise "ValueError"] [];
     SReturn "mod"].

(** /repo/python/src/math/reductions.py:11-38. *)
Definition reductions_mod : list (string * gdef) :=
  (common ++
   [("_import_module", GFun (import_own "vsip.math" "_reductions" None));
    ("_reduce", GFun (def ["func"; "a"]
       [SAssign "b" ("a" #. "block");
        SAssign "m" ("_import_module" @("b" #. "dtype"));
        SAssign "f" ("getattr" @("m" : expr, "func" : expr));
        SReturn ("f" @("b" : expr))]))] ++
   map (fun f => (f, GFun (def ["a"] [SReturn ("_reduce" @(str f, "a" : expr))]))) ["meanval"; "maxval"; "minval"; "sumval"])%list.

(** /repo/python/src/math/matvec.py:11-150. *)
Definition same_dtype : expr := EEq ("b1" #. "dtype") ("b2" #. "dtype").
Definition get_mod (e : expr) : stmt := SAssign "mod" ("import_module" @(str "vsip.math.matvec", e)).
Definition blocks (x y : string) : list stmt := [SAssign "b1" (x #. "block"); SAssign "b2" (y #. "block")].
Definition prod_with (f other : string) : string * gdef :=
  (f, GFun (def ["v"; "w"]
    (blocks "v" "w" ++
     [SIf same_dtype
        [get_mod ("b1" #. "dtype");
         SReturn (kwcall "matrix" "block" ("mod" #. f @("b1" : expr, "b2" : expr)))]
        [get_mod ("b2" #. "dtype");
         SReturn (kwcall "matrix" "array" ("numpy" #. "tensordot" @("array" @("b1" : expr), "array" @("mod" #. other @("b2" : expr)),
                                                                   ETuple [num 1; num 0])))]])%list)).
Definition matvec_mod : list (string * gdef) :=
  (common ++
   [("cvjdot", GFun (def ["a"; "b"] [SPass]));
    ("dot", GFun (def ["a"; "b"]
       (blocks "a" "b" ++
        [SIf same_dtype
           [get_mod ("b1" #. "dtype"); SReturn ("mod" #. "dot" @("b1" : expr, "b2" : expr))]
           (* reduce(operator.add, map(operator.mul, ..)): not modelled further *)
           [SReturn ("reduce" @("map" : expr, "b1" : expr, "b2" : expr))]])%list));
    ("trans", GFun (def ["m"]
       [get_mod ("m" #. "block" #. "dtype"); SReturn (kwcall "matrix" "array" ("mod" #. "trans" @("m" #. "block")))]));
    ("herm", GFun (def ["m"]
       [get_mod ("m" #. "block" #. "dtype"); SReturn (kwcall "matrix" "array" ("mod" #. "herm" @("m" #. "block")))]));
    ("kron", GFun (def ["alpha"; "v"; "w"]
       (blocks "v" "w" ++
        [SIf same_dtype
           [get_mod ("b1" #. "dtype"); SReturn ("mod" #. "kron" @("alpha" : expr, "b1" : expr, "b2" : expr))]
           [SReturn ("numpy" #. "kron" @("b1" : expr, "b2" : expr))]])%list));
    ("outer", GFun (def ["alpha"; "v"; "w"]
       (blocks "v" "w" ++
        [SIf same_dtype
           [get_mod ("b1" #. "dtype"); SReturn ("mod" #. "outer" @("alpha" : expr, "b1" : expr, "b2" : expr))]
           [SPass]])%list));
    ("prod", GFun (def ["v"; "w"]
       (blocks "v" "w" ++
        [SIf same_dtype
           [get_mod ("b1" #. "dtype");
            SAssign "b3" ("mod" #. "prod" @("b1" : expr, "b2" : expr));
            SIf (EEq ("len" @("b3" #. "shape")) (num 2))
              [SReturn (kwcall "matrix" "block" "b3")]
              [SReturn (kwcall "vector" "block" "b3")]]
           (let td k := "numpy" #. "tensordot" @("array" @("b1" : expr), "array" @("b2" : expr), ETuple [num k; num 0]) in
            [SIf (EEq ("len" @("b1" #. "shape")) ("len" @("b2" #. "shape")))
               [SReturn (kwcall "matrix" "array" (td 1))]
               [SIf (EEq ("len" @("b1" #. "shape")) (num 1))
                  [SReturn (kwcall "vector" "array" (td 0))]
                  [SReturn (kwcall "vector" "array" (td 1))]]])])%list));
    prod_with "prodh" "herm"; prod_with "prodj" "conj"; prod_with "prodt" "trans";
    ("gemp", GFun (defd [("alpha", None); ("a", None); ("b", None); ("beta", None); ("c", None); ("opa", Some VNone); ("opb", Some VNone)] [SPass]));
    ("gems", GFun (defd [("alpha", None); ("a", None); ("beta", None); ("c", None); ("opa", Some VNone)] [SPass]));
    ("vmmul", GFun (def ["axis"; "v"; "m"]
       [SAssign "vb" ("v" #. "block");
        SAssign "mb" ("m" #. "block");
        SIf (EEq ("vb" #. "dtype") ("mb" #. "dtype"))
          [get_mod ("vb" #. "dtype");
           SReturn (kwcall "matrix" "block" ("mod" #. "vmmul" @("axis" : expr, "vb" : expr, "mb" : expr)))]
          [SPass]]));
    ("cumsum", GFun (def ["v"] [SPass]))])%list.

(** /repo/python/src/math/solvers: lud.py:11-29, chold.py:11-31, qrd.py:12-72, svd.py:13-96, llsqsol.py:11-17,
    covsol.py:11-18, toepsol.py:11-32. *)
Definition checked (f : string) (args : list expr) : list stmt :=
  [SIf (ENot (ECall (self_ "impl_" #. f) args [])) [SRaise "ValueError"] [SReturn "x"]].
Definition like_b : stmt := SAssign "x" ("matrix" @("b" #. "dtype", "b" #. "rows" @(), "b" #. "cols" @())).
Definition lud_mod : list (string * gdef) :=
  (common ++ [("lud", GClass
    [("__init__", GFun (def ["self"; "dtype"; "length"]
        [SAssign "m" ("import_module" @(str "vsip.math.solvers.lud", "dtype" : expr));
         SAttr "self" "impl_" ("mod" #. "lud" @("length" : expr))]));
     ("decompose", GFun (def ["self"; "m"] [SReturn (self_ "impl_" #. "decompose" @("m" #. "block"))]));
     ("solve", GFun (def ["self"; "op"; "b"] (like_b :: checked "solve" ["b" #. "block"; "x" #. "block"])))])])%list.
Definition chold_mod : list (string * gdef) :=
  (common ++ [("chold", GClass
    [("__init__", GFun (def ["self"; "dtype"; "uplo"; "length"]
        [SAssign "mod" ("import_module" @(str "vsip.math.solvers.chold", "dtype" : expr));
         SAttr "self" "uplo" "uplo";
         SAttr "self" "length" "length";
         SAttr "self" "impl_" ("mod" #. "chold" @("uplo" : expr, "length" : expr))]));
     ("decompose", GFun (def ["self"; "m"] [SReturn (self_ "impl_" #. "decompose" @("m" #. "block"))]));
     ("solve", GFun (def ["self"; "b"] (like_b :: checked "solve" ["b" #. "block"; "x" #. "block"])))])])%list.
Definition qrd_mod : list (string * gdef) :=
  (common ++ [("mat_op", GVal (VEnumT "mat_op")); ("storage", GVal (VEnumT "storage")); ("product_side", GVal (VEnumT "product_side"));
   ("qrd", GClass
    [("nosave", GVal (VEnum "storage" 0)); ("saveq1", GVal (VEnum "storage" 1)); ("saveq", GVal (VEnum "storage" 2));
     ("__init__", GFun (def ["self"; "dtype"; "rows"; "cols"; "storage"]
        [SAttr "self" "_rows" "rows";
         SAttr "self" "_cols" "cols";
         SAttr "self" "qstorage" "storage";
         SAssign "mod" ("import_module" @(str "vsip.math.solvers.qrd", "dtype" : expr));
         SAttr "self" "impl_" ("mod" #. "qrd" @("rows" : expr, "cols" : expr, "storage" : expr))]));
     ("decompose", GFun (def ["self"; "m"] [SReturn (self_ "impl_" #. "decompose" @("m" #. "block"))]));
     ("prodq", GFun (def ["self"; "op"; "side"; "b"]
        ([SIf (EEq (self_ "qstorage") ("qrd" #. "saveq1"))
            [SAssign "shape" (ETuple [self_ "_rows"; self_ "_cols"])]
            [SAssign "shape" (ETuple [self_ "_rows"; self_ "_rows"])];
          SIf (EIn "op" (ETuple ["mat_op" #. "trans"; "mat_op" #. "herm"]))
            [SAssign "shape" (ETuple [EIdx "shape" (num 1); EIdx "shape" (num 0)])] [];
          SIf (EEq "side" ("product_side" #. "lside"))
            [SAssign "shape" (ETuple [EIdx "shape" (num 0); "b" #. "cols" @()])]
            [SAssign "shape" (ETuple ["b" #. "rows" @(); EIdx "shape" (num 1)])];
          SAssign "x" ("matrix" @("b" #. "dtype", EIdx "shape" (num 0), EIdx "shape" (num 1)))] ++
         checked "prodq" [EName "op"; EName "side"; "b" #. "block"; "x" #. "block"])%list));
     ("rsol", GFun (def ["self"; "b"; "alpha"] (like_b :: checked "rsol" ["b" #. "block"; EName "alpha"; "x" #. "block"])));
     ("covsol", GFun (def ["self"; "b"] (like_b :: checked "covsol" ["b" #. "block"; "x" #. "block"])));
     ("lsqsol", GFun (def ["self"; "b"]
        (SAssign "x" ("matrix" @("b" #. "dtype", self_ "_cols", "b" #. "cols" @())) ::
         checked "lsqsol" ["b" #. "block"; "x" #. "block"])))])])%list.
Definition svd_mod : list (string * gdef) :=
  let column_block (f dim : string) :=
    (f, GFun (def ["self"; "low"; "high"]
       ([SAssign "shape" (ETuple [self_ dim; EAdd (ESub "high" "low") (num 1)]);
         SAssign "x" ("matrix" @(self_ "dtype", EIdx "shape" (num 0), EIdx "shape" (num 1)))] ++
        checked f [EName "low"; EName "high"; "x" #. "block"])%list)) in
  let product (f : string) :=
    (f, GFun (def ["self"; "op"; "side"; "b"]
       ([SAssign "shape" (self_ "_produv_shape" @("op" : expr, "side" : expr, "b" : expr));
         SAssign "x" ("matrix" @("b" #. "dtype", EIdx "shape" (num 0), EIdx "shape" (num 1)))] ++
        checked f [EName "op"; EName "side"; "b" #. "block"; "x" #. "block"])%list)) in
  (common ++ [("storage", GVal (VEnumT "storage")); ("product_side", GVal (VEnumT "product_side"));
   ("svd", GClass
    [("uvnos", GVal (VEnum "storage" 3)); ("uvpart", GVal (VEnum "storage" 4)); ("uvfull", GVal (VEnum "storage" 5));
     ("__init__", GFun (def ["self"; "dtype"; "rows"; "cols"; "ustorage"; "vstorage"]
        [SAttr "self" "dtype" "dtype";
         SAttr "self" "_rows" "rows";
         SAttr "self" "_cols" "cols";
         SAttr "self" "ustorage" "ustorage";
         SAttr "self" "vstorage" "vstorage";
         SAssign "mod" ("import_module" @(str "vsip.math.solvers.svd", "dtype" : expr));
         SAttr "self" "impl_" ("mod" #. "svd" @("rows" : expr, "cols" : expr, "ustorage" : expr, "vstorage" : expr))]));
     ("decompose", GFun (def ["self"; "m"]
        (SAssign "x" ("vector" @("m" #. "dtype", "min" @("m" #. "rows" @(), "m" #. "cols" @()))) ::
         checked "decompose" ["m" #. "block"; "x" #. "block"])));
     product "produ"; product "prodv";
     column_block "u" "_rows"; column_block "v" "_cols";
     ("_select_dim", GFun (def ["storage"; "full"; "part"]
        [SIf (EEq "storage" "uvfull") [SReturn "full"] [SIf (EEq "storage" "uvpart") [SReturn "part"] [SReturn (num 0)]]]));
     ("_produv_shape", GFun (def ["self"; "op"; "side"; "b"]
        [SAssign "uv_shape" (ETuple [self_ "_select_dim" @(self_ "ustorage", self_ "_rows", self_ "_rows");
                                     self_ "_select_dim" @(self_ "vstorage", self_ "_rows", "min" @(self_ "_rows", self_ "_cols"))]);
         SIf (EEq "side" "mat_lside")
           [SIf (EEq "op" "mat_ntrans")
              [SAssign "shape" (ETuple [EIdx "uv_shape" (num 0); "b" #. "size" @(num 1)])]
              [SIf (EIn "op" (ETuple [EName "mat_trans"; EName "mat_herm"]))
                 [SAssign "shape" (ETuple [EIdx "uv_shape" (num 1); "b" #. "size" @(num 1)])] []]]
           [SIf (EEq "op" "mat_ntrans")
              [SAssign "shape" (ETuple ["b" #. "size" @(num 0); EIdx "uv_shape" (num 1)])]
              [SIf (EIn "op" (ETuple [EName "mat_trans"; EName "mat_herm"]))
                 [SAssign "shape" (ETuple ["b" #. "size" @(num 0); EIdx "uv_shape" (num 0)])] []]];
         SReturn "shape"]))])])%list.
Definition llsqsol_mod : list (string * gdef) :=
  (common ++ [("llsqsol", GFun (def ["a"; "b"]
     [SAssign "m" ("import_module" @(str "vsip.math.solvers.llsqsol", "a" #. "dtype"));
      SAssign "x" ("matrix" @("b" #. "dtype", "a" #. "cols" @(), "b" #. "cols" @()));
      SExpr ("m" #. "llsqsol" @("a" #. "block", "b" #. "block", "x" #. "block"));
      SReturn "x"]))])%list.
Definition covsol_mod : list (string * gdef) :=
  (common ++ [("covsol", GFun (def ["a"; "b"]
     [SAssign "m" ("import_module" @(str "vsip.math.solvers.covsol", "dtype" : expr));
      SAssign "m" ("import_module" @("v" #. "dtype"));
      like_b;
      SExpr ("m" #. "covsol" @("a" #. "block", "b" #. "block", "x" #. "block"));
      SReturn "x"]))])%list.
Definition toepsol_mod : list (string * gdef) :=
  (common ++ [("_import_module", GFun (import_own "vsip.math.solvers" "_toepsol" None));
   ("toepsol", GFun (defd [("a", None); ("b", None); ("w", Some VNone)]
     [SAssign "m" ("_import_module" @("v" #. "dtype"));
      SAssign "x" ("vector" @("a" #. "dtype", "a" #. "length" @()));
      SIf (ENot "w") [SAssign "w" ("vector" @("a" #. "dtype", "a" #. "length" @()))] [];
      SExpr ("m" #. "covsol" @("a" #. "block", "b" #. "block", "w" #. "block", "x" #. "block"));
      SReturn "x"]))])%list.

(** /repo/python/src/signal: conv.py:12-25, corr.py:11-38, fft.py:12-50, fftm.py:12-51, fir.py:11-45, iir.py:11-47,
    freqswap.py:11-32, window.py:12-72. *)
Definition apply2 : string * gdef :=
  ("__call__", GFun (def ["self"; "input"; "output"] [SExpr (self_ "_impl" @("input" #. "block", "output" #. "block"))])).
Definition apply_opt : string * gdef :=
  ("__call__", GFun (defd [("self", None); ("input", None); ("output", Some VNone)]
     [SIf "output" [SExpr (self_ "_impl" @("input" #. "block", "output" #. "block"))] [SExpr (self_ "_impl" @("input" #. "block"))]])).
Definition conv_mod : list (string * gdef) :=
  (common ++ [("conv", GClass
    [("__init__", GFun (def ["self"; "dtype"; "symmetry"; "support"; "i"; "decimation"; "n"; "hint"]
        [SAttr "self" "dtype" "dtype"; SAttr "self" "symmetry" "symmetry"; SAttr "self" "support" "support";
         SAssign "m" ("import_module" @(str "vsip.signal.conv", "dtype" : expr));
         SAttr "self" "_impl" ("m" #. "conv" @("symmetry" : expr, "i" : expr, "decimation" : expr, "support" : expr, "n" : expr, "hint" : expr))]));
     apply2])])%list.
Definition corr_mod : list (string * gdef) :=
  (common ++ [("_import_module", GFun (import_own "vsip.signal" "_corr" (Some false)));
   ("corr", GClass
    [("__init__", GFun (def ["self"; "dtype"; "support"; "r"; "i"; "n"; "hint"]
        [SAttr "self" "dtype" "dtype"; SAttr "self" "support" "support";
         SAssign "m" ("_import_module" @("dtype" : expr));
         SAttr "self" "_impl" ("m" #. "corr" @("support" : expr, "r" : expr, "i" : expr, "n" : expr, "hint" : expr))]));
     ("__call__", GFun (def ["self"; "bias"; "ref"; "input"; "output"]
        [SExpr (self_ "_impl" @("bias" : expr, "ref" #. "block", "input" #. "block", "output" #. "block"))]))])])%list.
Definition fwd_inv : list (string * gdef) := [("fwd", GVal (VInt (-1))); ("inv", GVal (VInt 1))].
Definition fft_mod : list (string * gdef) :=
  (common ++ fwd_inv ++ [("_import_module", GFun (import_own "vsip.signal" "_fft" (Some false)));
   ("fft", GClass
    [("__init__", GFun (def ["self"; "dtype"; "direction"; "len"; "scale"; "n"; "hint"]
        [SAttr "self" "dtype" "dtype"; SAttr "self" "direction" "direction"; SAttr "self" "length" "len"; SAttr "self" "scale" "scale";
         SAssign "m" ("_import_module" @("dtype" : expr));
         SIf (EEq "direction" "fwd")
           [SAttr "self" "_impl" ("m" #. "fft" @("len" : expr, "scale" : expr, "n" : expr, "hint" : expr))]
           [SAttr "self" "_impl" ("m" #. "ifft" @("len" : expr, "scale" : expr, "n" : expr, "hint" : expr))];
         SAttr "self" "input_size" (self_ "_impl" #. "input_size");
         SAttr "self" "output_size" (self_ "_impl" #. "output_size")]));
     apply_opt])])%list.
Definition fftm_mod : list (string * gdef) :=
  (common ++ fwd_inv ++ [("_import_module", GFun (import_own "vsip.signal" "_fftm" (Some true)));
   ("fftm", GClass
    [("__init__", GFun (def ["self"; "dtype"; "direction"; "rows"; "cols"; "scale"; "axis"; "n"; "hint"]
        (let args := [EName "rows"; EName "cols"; EName "scale"; EName "axis"; EName "n"; EName "hint"] in
         [SAttr "self" "dtype" "dtype"; SAttr "self" "direction" "direction"; SAttr "self" "size" (ETuple [EName "rows"; EName "cols"]);
          SAttr "self" "scale" "scale"; SAttr "self" "axis" "axis";
          SAssign "m" ("_import_module" @("dtype" : expr));
          SIf (EEq "direction" "fwd")
            [SAttr "self" "_impl" (ECall ("m" #. "fftm") args [])]
            [SAttr "self" "_impl" (ECall ("m" #. "ifftm") args [])];
          SAttr "self" "input_size" (self_ "_impl" #. "input_size");
          SAttr "self" "output_size" (self_ "_impl" #. "output_size")])));
     apply_opt])])%list.
Definition fir_mod : list (string * gdef) :=
  (common ++ fwd_inv ++ [("_import_module", GFun (import_own "vsip.signal" "_fir" None));
   ("fir", GClass
    [("__init__", GFun (def ["self"; "kernel"; "symmetry"; "len"; "decimation"; "state"; "n"; "hint"]
        [SAttr "self" "dtype" ("kernel" #. "dtype"); SAttr "self" "kernel" "kernel"; SAttr "self" "symmetry" "symmetry";
         SAttr "self" "length" "len"; SAttr "self" "decimation" "decimation"; SAttr "self" "state" "state";
         SAssign "m" ("_import_module" @(self_ "dtype"));
         SAttr "self" "_impl" ("m" #. "fir" @("kernel" #. "block", "symmetry" : expr, "len" : expr, "decimation" : expr, "state" : expr,
                                             "n" : expr, "hint" : expr))]));
     apply2])])%list.
Definition iir_mod : list (string * gdef) :=
  (common ++ fwd_inv ++ [("_import_module", GFun (import_own "vsip.signal" "_iir" (Some true)));
   ("iir", GClass
    [("__init__", GFun (def ["self"; "dtype"; "a"; "b"; "len"; "state"; "n"; "hint"]
        [SAttr "self" "dtype" "dtype";
         SAssign "m" ("_import_module" @(self_ "dtype"));
         SAttr "self" "_impl" ("m" #. "iir" @("a" : expr, "b" : expr, "len" : expr, "state" : expr, "n" : expr, "hint" : expr))]));
     apply2;
     ("reset", GFun (def ["self"] [SExpr (self_ "_impl" #. "reset" @())]))])])%list.
Definition like_v : stmt :=
  SIf ("isinstance" @("v" : expr, "vector" : expr))
    [SAssign "vout" ("vector" @("v" #. "dtype", "v" #. "length" @()))]
    [SAssign "vout" ("matrix" @("v" #. "dtype", "v" #. "rows" @(), "v" #. "cols" @()))].
Definition freqswap_mod : list (string * gdef) :=
  (common ++ [("_import_module", GFun (import_own "vsip.signal" "_freqswap" None));
   ("freqswap", GFun (def ["v"]
     [SAssign "m" ("_import_module" @("v" #. "dtype"));
      like_v;
      SExpr ("m" #. "freqswap" @("v" #. "block", "vout" #. "block"));
      SReturn "vout"]))])%list.
Definition window (f : string) (more : list string) : string * gdef :=
  (f, GFun (def ("dtype" :: "N" :: more)
     [SExpr ("import_module" @(str "vsip.block", "dtype" : expr));
      SAssign "m" ("import_module" @(str "vsip.signal.window", "dtype" : expr));
      SReturn (kwcall "vector" "block" (ECall ("m" #. f) (EName "N" :: map EName more) []))])).
Definition window_mod : list (string * gdef) :=
  (common ++ [window "blackman" []; window "cheby" ["ripple"]; window "hanning" []; window "kaiser" ["beta"]])%list.

(** /repo/python/src/selgen/clip.py:12-30. *)
Definition clip_mod : list (string * gdef) :=
  let clipper (f : string) (ps : list string) :=
    (f, GFun (def ("v" :: ps)
       [SAssign "m" ("import_module" @(str "vsip.selgen.clip", "v" #. "dtype"));
        like_v;
        SExpr (ECall ("m" #. f) (("v" #. "block") :: ("vout" #. "block") :: map EName ps) []);
        SReturn "vout"])) in
  (common ++ [clipper "clip" ["lt"; "ut"; "lc"; "uc"]; clipper "invclip" ["lt"; "mt"; "ut"; "lc"; "uc"]])%list.

(** /repo/python/src/random.py:13-67. *)
Definition random_mod : list (string * gdef) :=
  let draw (f : string) :=
    (f, GFun {| f_params := [("self", None)]; f_star := Some "shape"; f_kw := None; f_body :=
       [SIf (EEq ("len" @("shape" : expr)) (num 0))
          [SReturn (self_ "_rand" #. f @())]
          [SIf (EEq ("len" @("shape" : expr)) (num 1))
             [SReturn (kwcall "vector" "block" (self_ "_rand" #. f @(EIdx "shape" (num 0))))]
             [SReturn (kwcall "matrix" "block" (self_ "_rand" #. f @(EIdx "shape" (num 0), EIdx "shape" (num 1))))]]] |}) in
  (common ++ [("rand", GClass
    [("__init__", GFun (defd [("self", None); ("dtype", None); ("seed", Some (VInt 0)); ("portable", Some (VBool false))]
        [SExpr ("import_module" @(str "vsip.block", "dtype" : expr));
         SAssign "mod" ("import_module" @(str "vsip.rand", "dtype" : expr));
         SAttr "self" "_rand" ("mod" #. "rand" @("seed" : expr, "portable" : expr))]));
     draw "randu"; draw "randn"])])%list.

Definition vsip : program :=
  [("numpy", numpy_mod); ("vsip._block", block_mod); ("vsip.vector", vector_mod); ("vsip.matrix", matrix_mod);
   ("vsip.math.elementwise", elementwise_mod); ("vsip.math.reductions", reductions_mod); ("vsip.math.matvec", matvec_mod);
   ("vsip.math.solvers.lud", lud_mod); ("vsip.math.solvers.chold", chold_mod); ("vsip.math.solvers.qrd", qrd_mod);
   ("vsip.math.solvers.svd", svd_mod); ("vsip.math.solvers.llsqsol", llsqsol_mod); ("vsip.math.solvers.covsol", covsol_mod);
   ("vsip.math.solvers.toepsol", toepsol_mod);
   ("vsip.signal.conv", conv_mod); ("vsip.signal.corr", corr_mod); ("vsip.signal.fft", fft_mod); ("vsip.signal.fftm", fftm_mod);
   ("vsip.signal.fir", fir_mod); ("vsip.signal.iir", iir_mod); ("vsip.signal.freqswap", freqswap_mod); ("vsip.signal.window", window_mod);
   ("vsip.selgen.clip", clip_mod); ("vsip.random", random_mod)].

(** ** Running a call *)

(** What a call from Python comes to: the value it returns or the exception it raises, with the C++
    functions called on the way, oldest first, and their arguments by parameter. *)
Inductive outcome :=
| Returns (v : val) (calls : list (string * list (string * val)))
| Raises (exc : string) (calls : list (string * list (string * val)))
| Unmodelled.
Definition calls_of (s : state) : list (string * list (string * val)) := map (fun e => (ev_fun e, ev_args e)) (rev (events s)).
(** The same run without the state. *)
Inductive tree :=
| Leaf (o : outcome)
| Asks (e : event) (throws no yes : tree)
| Tests (c : check) (yes no : tree).
Fixpoint tree_of (r : res val) : tree :=
  match r with
  | Ok v s => Leaf (Returns v (calls_of s))
  | Exc x s => Leaf (Raises x (calls_of s))
  | Out => Leaf Unmodelled
  | Ask e t n y => Asks e (tree_of t) (tree_of n) (tree_of y)
  | Test c y n => Tests c (tree_of y) (tree_of n)
  end.
Fixpoint outcome_of (W : world) (t : tree) : outcome :=
  match t with
  | Leaf o => o
  | Asks e throws no yes =>
    match w_ok W e with None => outcome_of W throws | Some true => outcome_of W yes | Some false => outcome_of W no end
  | Tests c yes no => if holds c then outcome_of W yes else outcome_of W no
  end.
(* How deep calls may nest: more than any of the programs needs. *)
Definition depth : nat := 100.
(** Call of the value [f] with positional arguments, when the extension modules [ld] have been imported and
    [n] is the identity of the next new object. *)
Definition py (W : world) (ld : string -> bool) (n : Z) (f : val) (args : list val) : outcome :=
  outcome_of W (tree_of (call W vsip ext methods depth f args [] {| loaded := ld; next := n; events := [] |})).
