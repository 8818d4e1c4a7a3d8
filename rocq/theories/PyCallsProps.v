(** Theorems about calls from Python into the library. *)
From Coq Require Import String List ZArith Bool.
From Verif Require Import PyLang PyProg PyCalls PyCallsProofs.
Import ListNotations.
Local Open Scope string_scope.
Local Open Scope Z_scope.

(** fir(kernel, symmetry, len, decimation, state, n, hint) makes a filter from the block of the kernel and the other
    arguments, each in its place; calling the result filters the first argument into the second with that filter. *)
Theorem C82_fir :
  forall W ld k d i len s l dec st nn h,
  is_real d -> 0 <= l -> 0 <= dec -> 0 <= nn < 4294967296 ->
  exists fields,
    py W ld k (VClass "vsip.signal.fir" "fir")
      [vec i d len; VEnum "symmetry" s; VInt l; VInt dec; VEnum "obj_state" st; VInt nn; VEnum "alg_hint" h] =
    calling W "create_fir"
      [("k", VBlock i d [len]); ("s", VEnum "symmetry" s); ("l", VInt l); ("d", VInt dec); ("c", VEnum "obj_state" st);
       ("n", VInt nn); ("h", VEnum "alg_hint" h)] []
      (Returns (VInst "vsip.signal.fir" "fir" fields)) /\
    forall ld' k' a na b nb,
      py W ld' k' (VInst "vsip.signal.fir" "fir" fields) [vec a d na; vec b d nb] =
      calling W "fir::op" [("self", VObj "fir" d k); ("i", VBlock a d [na]); ("o", VBlock b d [nb])] [] (Returns VNone).
Proof. exact fir_ok. Qed.
Example C82_fir_example :
  exists fields, py {| w_ok := fun _ => Some true; w_num := fun _ => 0; w_index := fun _ => 0 |} (fun _ => false) 9 (VClass "vsip.signal.fir" "fir")
    [vec 3 F64 4; VEnum "symmetry" 0; VInt 64; VInt 2; VEnum "obj_state" 1; VInt 0; VEnum "alg_hint" 0] =
  Returns (VInst "vsip.signal.fir" "fir" fields)
    [("create_fir", [("k", VBlock 3 F64 [4]); ("s", VEnum "symmetry" 0); ("l", VInt 64); ("d", VInt 2); ("c", VEnum "obj_state" 1);
       ("n", VInt 0); ("h", VEnum "alg_hint" 0)])].
Proof. eexists. vm_compute. reflexivity. Qed.

(** A real forward FFT: fft(dtype, direction, len, scale, n, hint) makes the forward transform with that length, scale,
    number of times and hint; calling it transforms the first argument into the second. *)
Theorem C82_fft_forward :
  forall W ld k t d l s nn h,
  is_real d -> names t d -> 0 <= l -> 0 <= nn < 4294967296 ->
  exists fields,
    py W ld k (VClass "vsip.signal.fft" "fft") [VType t; VInt (-1); VInt l; VNum s; VInt nn; VEnum "alg_hint" h] =
    calling W "create_fft" [("length", VInt l); ("scale", VNum s); ("n", VInt nn); ("h", VEnum "alg_hint" h)] []
      (Returns (VInst "vsip.signal.fft" "fft" fields)) /\
    forall ld' k' a na b nb,
      py W ld' k' (VInst "vsip.signal.fft" "fft" fields) [vec a d na; vec b (complex_over d) nb] =
      calling W "fft::op" [("self", VObj "fft" d k); ("i", VBlock a d [na]); ("o", VBlock b (complex_over d) [nb])] [] (Returns VNone).
Proof. exact fft_forward_ok. Qed.
Example C82_fft_forward_example :
  exists fields, py {| w_ok := fun _ => Some true; w_num := fun _ => 0; w_index := fun _ => 0 |} (fun _ => false) 9 (VClass "vsip.signal.fft" "fft") [VType TyFloat; VInt (-1); VInt 64; VNum 1; VInt 0; VEnum "alg_hint" 0] =
  Returns (VInst "vsip.signal.fft" "fft" fields) [("create_fft", [("length", VInt 64); ("scale", VNum 1); ("n", VInt 0); ("h", VEnum "alg_hint" 0)])].
Proof. eexists. vm_compute. reflexivity. Qed.

(** The same for transforms of the rows or columns of a matrix: fftm(dtype, direction, rows, cols, scale, axis, n, hint). *)
Theorem C82_fftm_forward :
  forall W ld k t d r c s ax nn h,
  is_real d -> names t d -> 0 <= r -> 0 <= c -> -2147483648 <= ax < 2147483648 -> 0 <= nn < 4294967296 ->
  exists fields,
    py W ld k (VClass "vsip.signal.fftm" "fftm")
      [VType t; VInt (-1); VInt r; VInt c; VNum s; VInt ax; VInt nn; VEnum "alg_hint" h] =
    calling W "create_fftm"
      [("rows", VInt r); ("cols", VInt c); ("scale", VNum s); ("a", VInt ax); ("n", VInt nn); ("h", VEnum "alg_hint" h)] []
      (Returns (VInst "vsip.signal.fftm" "fftm" fields)) /\
    forall ld' k' a ra ca b rb cb,
      py W ld' k' (VInst "vsip.signal.fftm" "fftm" fields) [mat a d ra ca; mat b (complex_over d) rb cb] =
      calling W "fftm::op"
        [("self", VObj "fftm" d k); ("i", VBlock a d [ra; ca]); ("o", VBlock b (complex_over d) [rb; cb])] [] (Returns VNone).
Proof. exact fftm_forward_ok. Qed.
Example C82_fftm_forward_example :
  exists fields, py {| w_ok := fun _ => Some true; w_num := fun _ => 0; w_index := fun _ => 0 |} (fun _ => false) 9 (VClass "vsip.signal.fftm" "fftm") [VType (NpType F32); VInt (-1); VInt 64; VInt 8; VNum 1; VInt 1; VInt 0; VEnum "alg_hint" 0] =
  Returns (VInst "vsip.signal.fftm" "fftm" fields) [("create_fftm", [("rows", VInt 64); ("cols", VInt 8); ("scale", VNum 1); ("a", VInt 1); ("n", VInt 0); ("h", VEnum "alg_hint" 0)])].
Proof. eexists. vm_compute. reflexivity. Qed.

(** A real inverse FFT: fft(dtype, direction, len, scale, n, hint) makes the inverse transform with that length, scale,
    number of times and hint; calling it transforms the first argument into the second. *)
Theorem C82_fft_inverse :
  forall W ld k t d l s nn h,
  is_real d -> names t d -> 0 <= l -> 0 <= nn < 4294967296 ->
  exists fields,
    py W ld k (VClass "vsip.signal.fft" "fft") [VType t; VInt (1); VInt l; VNum s; VInt nn; VEnum "alg_hint" h] =
    calling W "create_ifft" [("length", VInt l); ("scale", VNum s); ("n", VInt nn); ("h", VEnum "alg_hint" h)] []
      (Returns (VInst "vsip.signal.fft" "fft" fields)) /\
    forall ld' k' a na b nb,
      py W ld' k' (VInst "vsip.signal.fft" "fft" fields) [vec a (complex_over d) na; vec b d nb] =
      calling W "ifft::op" [("self", VObj "ifft" d k); ("i", VBlock a (complex_over d) [na]); ("o", VBlock b d [nb])] [] (Returns VNone).
Proof. exact fft_inverse_ok. Qed.
Example C82_fft_inverse_example :
  exists fields, py {| w_ok := fun _ => Some true; w_num := fun _ => 0; w_index := fun _ => 0 |} (fun _ => false) 9 (VClass "vsip.signal.fft" "fft") [VType TyFloat; VInt (1); VInt 64; VNum 1; VInt 0; VEnum "alg_hint" 0] =
  Returns (VInst "vsip.signal.fft" "fft" fields) [("create_ifft", [("length", VInt 64); ("scale", VNum 1); ("n", VInt 0); ("h", VEnum "alg_hint" 0)])].
Proof. eexists. vm_compute. reflexivity. Qed.

(** The same for transforms of the rows or columns of a matrix: fftm(dtype, direction, rows, cols, scale, axis, n, hint). *)
Theorem C82_fftm_inverse :
  forall W ld k t d r c s ax nn h,
  is_real d -> names t d -> 0 <= r -> 0 <= c -> -2147483648 <= ax < 2147483648 -> 0 <= nn < 4294967296 ->
  exists fields,
    py W ld k (VClass "vsip.signal.fftm" "fftm")
      [VType t; VInt (1); VInt r; VInt c; VNum s; VInt ax; VInt nn; VEnum "alg_hint" h] =
    calling W "create_ifftm"
      [("rows", VInt r); ("cols", VInt c); ("scale", VNum s); ("a", VInt ax); ("n", VInt nn); ("h", VEnum "alg_hint" h)] []
      (Returns (VInst "vsip.signal.fftm" "fftm" fields)) /\
    forall ld' k' a ra ca b rb cb,
      py W ld' k' (VInst "vsip.signal.fftm" "fftm" fields) [mat a (complex_over d) ra ca; mat b d rb cb] =
      calling W "ifftm::op"
        [("self", VObj "ifftm" d k); ("i", VBlock a (complex_over d) [ra; ca]); ("o", VBlock b d [rb; cb])] [] (Returns VNone).
Proof. exact fftm_inverse_ok. Qed.
Example C82_fftm_inverse_example :
  exists fields, py {| w_ok := fun _ => Some true; w_num := fun _ => 0; w_index := fun _ => 0 |} (fun _ => false) 9 (VClass "vsip.signal.fftm" "fftm") [VType (NpType F32); VInt (1); VInt 64; VInt 8; VNum 1; VInt 1; VInt 0; VEnum "alg_hint" 0] =
  Returns (VInst "vsip.signal.fftm" "fftm" fields) [("create_ifftm", [("rows", VInt 64); ("cols", VInt 8); ("scale", VNum 1); ("a", VInt 1); ("n", VInt 0); ("h", VEnum "alg_hint" 0)])].
Proof. eexists. vm_compute. reflexivity. Qed.

(** Complex transforms of a matrix, in both directions, out of place and in place. *)
Theorem C82_fftm_complex :
  forall W ld k t dir r c s ax nn h,
  t = TyComplex \/ t = Dtype C128 -> dir = -1 \/ dir = 1 ->
  0 <= r -> 0 <= c -> -2147483648 <= ax < 2147483648 -> 0 <= nn < 4294967296 ->
  let cls := if dir =? -1 then "fftm" else "ifftm" in
  exists fields,
    py W ld k (VClass "vsip.signal.fftm" "fftm")
      [VType t; VInt dir; VInt r; VInt c; VNum s; VInt ax; VInt nn; VEnum "alg_hint" h] =
    calling W (if dir =? -1 then "create_fftm" else "create_ifftm")
      [("rows", VInt r); ("cols", VInt c); ("scale", VNum s); ("a", VInt ax); ("n", VInt nn); ("h", VEnum "alg_hint" h)] []
      (Returns (VInst "vsip.signal.fftm" "fftm" fields)) /\
    (forall ld' k' a ra ca b rb cb,
      py W ld' k' (VInst "vsip.signal.fftm" "fftm" fields) [mat a C128 ra ca; mat b C128 rb cb] =
      calling W (if dir =? -1 then "fftm::op" else "ifftm::op")
        [("self", VObj cls C128 k); ("i", VBlock a C128 [ra; ca]); ("o", VBlock b C128 [rb; cb])] [] (Returns VNone)) /\
    (forall ld' k' a ra ca,
      py W ld' k' (VInst "vsip.signal.fftm" "fftm" fields) [mat a C128 ra ca] =
      calling W (if dir =? -1 then "fftm::ip" else "ifftm::ip")
        [("self", VObj cls C128 k); ("io", VBlock a C128 [ra; ca])] [] (Returns VNone)).
Proof. exact fftm_complex_ok. Qed.
Example C82_fftm_complex_example :
  exists fields, py {| w_ok := fun _ => Some true; w_num := fun _ => 0; w_index := fun _ => 0 |} (fun _ => false) 9 (VClass "vsip.signal.fftm" "fftm") [VType TyComplex; VInt 1; VInt 64; VInt 8; VNum 1; VInt 0; VInt 0; VEnum "alg_hint" 0] =
  Returns (VInst "vsip.signal.fftm" "fftm" fields) [("create_ifftm", [("rows", VInt 64); ("cols", VInt 8); ("scale", VNum 1); ("a", VInt 0); ("n", VInt 0); ("h", VEnum "alg_hint" 0)])].
Proof. eexists. vm_compute. reflexivity. Qed.

(** The elementwise functions of one argument, for vectors and matrices: the C++ function of that name gets the
    argument's block, and the block it returns comes back as a view of the same kind. *)
Theorem C82_unary :
  forall W ld k f d,
  (is_real d /\ In f ["acos"; "asin"; "atan"; "ceil"; "cos"; "cosh"; "exp"; "exp10"; "floor"; "log"; "log10"; "magsq"; "neg"; "sin"]) \/
  (is_complex d /\ In f ["cos"; "cosh"; "exp"; "log"; "log10"; "neg"; "sin"]) ->
  ld (block_module d) = true ->
  (forall i n,
    py W ld k (VFun "vsip.math.elementwise" f) [vec i d n] = calling W f [("b", VBlock i d [n])] [] (Returns (vec k d n))) /\
  (forall i r c,
    py W ld k (VFun "vsip.math.elementwise" f) [mat i d r c] = calling W f [("b", VBlock i d [r; c])] [] (Returns (mat k d r c))).
Proof. exact unary_ok. Qed.
Example C82_unary_example :
  py {| w_ok := fun _ => Some true; w_num := fun _ => 0; w_index := fun _ => 0 |} (fun _ => true) 9 (VFun "vsip.math.elementwise" "sin") [mat 3 F32 2 5] = Returns (mat 9 F32 2 5) [("sin", [("b", VBlock 3 F32 [2; 5])])].
Proof. vm_compute. reflexivity. Qed.

(** The elementwise functions of two arguments of one type keep their order. *)
Theorem C82_binary :
  forall W ld k f d,
  (is_real d /\ In f ["atan2"; "mul"]) \/ (is_complex d /\ In f ["mul"]) ->
  ld (block_module d) = true ->
  (forall i n j m,
    py W ld k (VFun "vsip.math.elementwise" f) [vec i d n; vec j d m] =
    calling W f [("b1", VBlock i d [n]); ("b2", VBlock j d [m])] [] (Returns (vec k d n))) /\
  (forall i r c j r' c',
    py W ld k (VFun "vsip.math.elementwise" f) [mat i d r c; mat j d r' c'] =
    calling W f [("b1", VBlock i d [r; c]); ("b2", VBlock j d [r'; c'])] [] (Returns (mat k d r c))).
Proof. exact binary_ok. Qed.
Example C82_binary_example :
  py {| w_ok := fun _ => Some true; w_num := fun _ => 0; w_index := fun _ => 0 |} (fun _ => true) 9 (VFun "vsip.math.elementwise" "atan2") [vec 3 F64 5; vec 4 F64 5] = Returns (vec 9 F64 5) [("atan2", [("b1", VBlock 3 F64 [5]); ("b2", VBlock 4 F64 [5])])].
Proof. vm_compute. reflexivity. Qed.

(** The elementwise functions of three arguments of one type keep their order. *)
Theorem C82_ternary :
  forall W ld k f d,
  (is_real d /\ In f ["am"; "ite"]) \/ (is_complex d /\ In f ["am"]) ->
  ld (block_module d) = true ->
  (forall i n j m l p,
    py W ld k (VFun "vsip.math.elementwise" f) [vec i d n; vec j d m; vec l d p] =
    calling W f [("b1", VBlock i d [n]); ("b2", VBlock j d [m]); ("b3", VBlock l d [p])] [] (Returns (vec k d n))) /\
  (forall i r c j r' c' l r'' c'',
    py W ld k (VFun "vsip.math.elementwise" f) [mat i d r c; mat j d r' c'; mat l d r'' c''] =
    calling W f [("b1", VBlock i d [r; c]); ("b2", VBlock j d [r'; c']); ("b3", VBlock l d [r''; c''])] [] (Returns (mat k d r c))).
Proof. exact ternary_ok. Qed.
Example C82_ternary_example :
  py {| w_ok := fun _ => Some true; w_num := fun _ => 0; w_index := fun _ => 0 |} (fun _ => true) 9 (VFun "vsip.math.elementwise" "am") [vec 3 F64 5; vec 4 F64 5; vec 5 F64 5] = Returns (vec 9 F64 5) [("am", [("b1", VBlock 3 F64 [5]); ("b2", VBlock 4 F64 [5]); ("b3", VBlock 5 F64 [5])])].
Proof. vm_compute. reflexivity. Qed.

(** Functions whose result has another type than their argument work once blocks of that type have been used. *)
Theorem C82_other_result_type :
  forall W ld k i d n,
  (is_real d -> ld (block_module (complex_over d)) = true ->
    py W ld k (VFun "vsip.math.elementwise" "euler") [vec i d n] =
    calling W "euler" [("b", VBlock i d [n])] [] (Returns (vec k (complex_over d) n))) /\
  (is_complex d -> ld (block_module (real_under d)) = true -> forall f, In f ["arg"; "magsq"] ->
    py W ld k (VFun "vsip.math.elementwise" f) [vec i d n] =
    calling W f [("b", VBlock i d [n])] [] (Returns (vec k (real_under d) n))) /\
  (is_real d \/ is_complex d -> ld (block_module B8) = true -> forall j m,
    py W ld k (VFun "vsip.math.elementwise" "eq") [vec i d n; vec j d m] =
    calling W "eq" [("b1", VBlock i d [n]); ("b2", VBlock j d [m])] [] (Returns (vec k B8 n))).
Proof. exact other_result_type_ok. Qed.
Example C82_other_result_type_example :
  py {| w_ok := fun _ => Some true; w_num := fun _ => 0; w_index := fun _ => 0 |} (fun _ => true) 9 (VFun "vsip.math.elementwise" "magsq") [vec 3 C64 5] = Returns (vec 9 F32 5) [("magsq", [("b", VBlock 3 C64 [5])])].
Proof. vm_compute. reflexivity. Qed.

(** Defect: the elementwise functions whose result has another type (eq, euler; arg and magsq of complex arguments) do not
    load the module of that type.  Unless the program has used blocks of it before, the C++ function runs to the end and
    the call then fails with TypeError: for example eq of two vectors before any boolean block has been made. *)
Theorem C82_result_type_refuted :
  forall W ld k i d n,
  (is_real d -> ld (block_module (complex_over d)) = false ->
    py W ld k (VFun "vsip.math.elementwise" "euler") [vec i d n] =
    calling W "euler" [("b", VBlock i d [n])] [] (Raises "TypeError")) /\
  (is_complex d -> ld (block_module (real_under d)) = false -> forall f, In f ["arg"; "magsq"] ->
    py W ld k (VFun "vsip.math.elementwise" f) [vec i d n] =
    calling W f [("b", VBlock i d [n])] [] (Raises "TypeError")) /\
  (is_real d \/ is_complex d -> ld (block_module B8) = false -> forall j m,
    py W ld k (VFun "vsip.math.elementwise" "eq") [vec i d n; vec j d m] =
    calling W "eq" [("b1", VBlock i d [n]); ("b2", VBlock j d [m])] [] (Raises "TypeError")).
Proof. exact result_type_bad. Qed.
Example C82_result_type_refuted_example :
  py {| w_ok := fun _ => Some true; w_num := fun _ => 0; w_index := fun _ => 0 |} (fun m => String.eqb m "vsip._block_d") 9 (VFun "vsip.math.elementwise" "eq") [vec 3 F64 5; vec 4 F64 5] = Raises "TypeError" [("eq", [("b1", VBlock 3 F64 [5]); ("b2", VBlock 4 F64 [5])])].
Proof. vm_compute. reflexivity. Qed.

(** Elementwise functions of arguments of different types raise ValueError and compute nothing. *)
Theorem C82_mixed_types_rejected :
  forall W ld k f i d n j d' m,
  In f ["atan2"; "eq"; "mul"] -> d <> d' ->
  py W ld k (VFun "vsip.math.elementwise" f) [vec i d n; vec j d' m] = Raises "ValueError" [].
Proof. exact mixed_types_rejected_ok. Qed.
Example C82_mixed_types_rejected_example :
  py {| w_ok := fun _ => Some true; w_num := fun _ => 0; w_index := fun _ => 0 |} (fun _ => true) 9 (VFun "vsip.math.elementwise" "mul") [vec 3 F64 5; vec 4 F32 5] = Raises "ValueError" [].
Proof. vm_compute. reflexivity. Qed.

(** Limitation: arg of a real view, and acos, asin, atan, ceil, exp10, floor and euler of a complex one, are offered
    in Python without a C++ function behind them and raise AttributeError. *)
Theorem C82_unexported_refuted :
  forall W ld k i d n,
  (is_real d -> py W ld k (VFun "vsip.math.elementwise" "arg") [vec i d n] = Raises "AttributeError" []) /\
  (is_complex d -> forall f, In f ["acos"; "asin"; "atan"; "ceil"; "euler"; "exp10"; "floor"] ->
    py W ld k (VFun "vsip.math.elementwise" f) [vec i d n] = Raises "AttributeError" []).
Proof. exact unexported_bad. Qed.
Example C82_unexported_refuted_example :
  py {| w_ok := fun _ => Some true; w_num := fun _ => 0; w_index := fun _ => 0 |} (fun _ => true) 9 (VFun "vsip.math.elementwise" "floor") [vec 3 C128 5] = Raises "AttributeError" [].
Proof. vm_compute. reflexivity. Qed.

(** Defect: ite takes a condition and two alternatives, but a boolean condition is refused with ValueError, because all three
    arguments must have one type. *)
Theorem C82_ite_mask_refuted :
  forall W ld k i n j d m l p,
  is_real d -> py W ld k (VFun "vsip.math.elementwise" "ite") [vec i B8 n; vec j d m; vec l d p] = Raises "ValueError" [].
Proof. exact ite_mask_bad. Qed.
Example C82_ite_mask_refuted_example :
  py {| w_ok := fun _ => Some true; w_num := fun _ => 0; w_index := fun _ => 0 |} (fun _ => true) 9 (VFun "vsip.math.elementwise" "ite") [vec 3 B8 5; vec 4 F64 5; vec 5 F64 5] = Raises "ValueError" [].
Proof. vm_compute. reflexivity. Qed.

(** The reductions hand the block to the C++ function of their name and return its number, maxval and minval with the index. *)
Theorem C82_reductions :
  forall W ld k d,
  is_real d ->
  (forall f i n, In f ["meanval"; "sumval"] ->
    py W ld k (VFun "vsip.math.reductions" f) [vec i d n] =
    calling W f [("b", VBlock i d [n])] [] (Returns (VNum (number_from W f [("b", VBlock i d [n])])))) /\
  (forall f i r c, In f ["meanval"; "sumval"] ->
    py W ld k (VFun "vsip.math.reductions" f) [mat i d r c] =
    calling W f [("b", VBlock i d [r; c])] [] (Returns (VNum (number_from W f [("b", VBlock i d [r; c])])))) /\
  (forall f i n, In f ["maxval"; "minval"] ->
    py W ld k (VFun "vsip.math.reductions" f) [vec i d n] =
    calling W f [("b", VBlock i d [n])] []
      (Returns (VTuple [VNum (number_from W f [("b", VBlock i d [n])]); VInt (index_from W f [("b", VBlock i d [n])])]))).
Proof. exact reductions_ok. Qed.
Example C82_reductions_example :
  py {| w_ok := fun _ => Some true; w_num := fun _ => 7; w_index := fun _ => 2 |} (fun _ => true) 9 (VFun "vsip.math.reductions" "maxval") [vec 3 F64 5] = Returns (VTuple [VNum 7; VInt 2]) [("maxval", [("b", VBlock 3 F64 [5])])].
Proof. vm_compute. reflexivity. Qed.

(** Limitation: reductions of complex views, all of which the C++ library supports except maxval and minval, raise ValueError. *)
Theorem C82_complex_reductions_refuted :
  forall W ld k f i d n,
  In f ["meanval"; "sumval"] -> is_complex d -> py W ld k (VFun "vsip.math.reductions" f) [vec i d n] = Raises "ValueError" [].
Proof. exact complex_reductions_bad. Qed.
Example C82_complex_reductions_refuted_example :
  py {| w_ok := fun _ => Some true; w_num := fun _ => 0; w_index := fun _ => 0 |} (fun _ => true) 9 (VFun "vsip.math.reductions" "sumval") [vec 3 C64 5] = Raises "ValueError" [].
Proof. vm_compute. reflexivity. Qed.

(** dot returns the number that the C++ dot product of the two blocks returns. *)
Theorem C82_dot :
  forall W ld k i d n j m,
  (is_real d ->
    py W ld k (VFun "vsip.math.matvec" "dot") [vec i d n; vec j d m] =
    calling W "dot" [("b1", VBlock i d [n]); ("b2", VBlock j d [m])] []
      (Returns (VNum (number_from W "dot" [("b1", VBlock i d [n]); ("b2", VBlock j d [m])])))) /\
  (is_complex d ->
    py W ld k (VFun "vsip.math.matvec" "dot") [vec i d n; vec j d m] =
    calling W "dot" [("b1", VBlock i d [n]); ("b2", VBlock j d [m])] []
      (Returns (VCplx (number_from W "dot" [("b1", VBlock i d [n]); ("b2", VBlock j d [m])])))).
Proof. exact dot_ok. Qed.
Example C82_dot_example :
  py {| w_ok := fun _ => Some true; w_num := fun _ => 7; w_index := fun _ => 2 |} (fun _ => true) 9 (VFun "vsip.math.matvec" "dot") [vec 3 C64 5; vec 4 C64 5] = Returns (VCplx 7) [("dot", [("b1", VBlock 3 C64 [5]); ("b2", VBlock 4 C64 [5])])].
Proof. vm_compute. reflexivity. Qed.

(** trans and herm return a new matrix, with rows and columns exchanged, copied from the block that C++ returns; herm is for
    complex matrices. *)
Theorem C82_transposes :
  forall W ld k f i d r c,
  (In f ["trans"] /\ (is_real d \/ is_complex d)) \/ (In f ["herm"] /\ is_complex d) -> ld (block_module d) = true ->
  py W ld k (VFun "vsip.math.matvec" f) [mat i d r c] =
  calling W f [("b", VBlock i d [r; c])] [] (fun h =>
  calling W "block_from_array" [("o", VArray k d [c; r])] h (Returns (mat (k + 1) d c r))).
Proof. exact transposes_ok. Qed.
Example C82_transposes_example :
  py {| w_ok := fun _ => Some true; w_num := fun _ => 0; w_index := fun _ => 0 |} (fun _ => true) 9 (VFun "vsip.math.matvec" "trans") [mat 3 F64 2 5] = Returns (mat 10 F64 5 2) [("trans", [("b", VBlock 3 F64 [2; 5])]); ("block_from_array", [("o", VArray 9 F64 [5; 2])])].
Proof. vm_compute. reflexivity. Qed.

(** prod of two arguments of one type: matrix and matrix, matrix and vector, vector and matrix, in this order and with the
    result a matrix or a vector; vmmul with its axis. *)
Theorem C82_products :
  forall W ld k d,
  is_real d \/ is_complex d -> ld (block_module d) = true ->
  (forall i r c j r' c',
    py W ld k (VFun "vsip.math.matvec" "prod") [mat i d r c; mat j d r' c'] =
    calling W "mmprod" [("a", VBlock i d [r; c]); ("b", VBlock j d [r'; c'])] [] (Returns (mat k d r c'))) /\
  (forall i r c j n,
    py W ld k (VFun "vsip.math.matvec" "prod") [mat i d r c; vec j d n] =
    calling W "mvprod" [("a", VBlock i d [r; c]); ("b", VBlock j d [n])] [] (Returns (vec k d r))) /\
  (forall i n j r c,
    py W ld k (VFun "vsip.math.matvec" "prod") [vec i d n; mat j d r c] =
    calling W "vmprod" [("a", VBlock i d [n]); ("b", VBlock j d [r; c])] [] (Returns (vec k d c))) /\
  (forall ax i n j r c, -2147483648 <= ax < 2147483648 ->
    py W ld k (VFun "vsip.math.matvec" "vmmul") [VInt ax; vec i d n; mat j d r c] =
    calling W "vmmul" [("axis", VInt ax); ("a", VBlock i d [n]); ("b", VBlock j d [r; c])] [] (Returns (mat k d r c))).
Proof. exact products_ok. Qed.
Example C82_products_example :
  py {| w_ok := fun _ => Some true; w_num := fun _ => 0; w_index := fun _ => 0 |} (fun _ => true) 9 (VFun "vsip.math.matvec" "prod") [mat 3 F64 2 5; vec 4 F64 5] = Returns (vec 9 F64 2) [("mvprod", [("a", VBlock 3 F64 [2; 5]); ("b", VBlock 4 F64 [5])])].
Proof. vm_compute. reflexivity. Qed.

(** Defect: kron, outer, prodh, prodj and prodt of arguments of one type call C++ functions that the extension modules do not
    export, and always raise AttributeError. *)
Theorem C82_matvec_missing_refuted :
  forall W ld k d,
  is_real d \/ is_complex d ->
  (forall f x i n j m, In f ["kron"; "outer"] ->
    py W ld k (VFun "vsip.math.matvec" f) [VNum x; vec i d n; vec j d m] = Raises "AttributeError" []) /\
  (forall f i r c j r' c', In f ["prodh"; "prodj"; "prodt"] ->
    py W ld k (VFun "vsip.math.matvec" f) [mat i d r c; mat j d r' c'] = Raises "AttributeError" []).
Proof. exact matvec_missing_bad. Qed.
Example C82_matvec_missing_refuted_example :
  py {| w_ok := fun _ => Some true; w_num := fun _ => 0; w_index := fun _ => 0 |} (fun _ => true) 9 (VFun "vsip.math.matvec" "prodh") [mat 3 C64 2 5; mat 4 C64 7 5] = Raises "AttributeError" [].
Proof. vm_compute. reflexivity. Qed.

(** Defect: prod of arguments of different types is written to go through NumPy, but uses a name that is not defined, and
    always raises NameError. *)
Theorem C82_mixed_prod_refuted :
  forall W ld k i d r c j d' r' c' n,
  d <> d' ->
  py W ld k (VFun "vsip.math.matvec" "prod") [mat i d r c; mat j d' r' c'] = Raises "NameError" [] /\
  py W ld k (VFun "vsip.math.matvec" "prod") [mat i d r c; vec j d' n] = Raises "NameError" [] /\
  py W ld k (VFun "vsip.math.matvec" "prod") [vec i d n; mat j d' r' c'] = Raises "NameError" [].
Proof. exact mixed_prod_bad. Qed.
Example C82_mixed_prod_refuted_example :
  py {| w_ok := fun _ => Some true; w_num := fun _ => 0; w_index := fun _ => 0 |} (fun _ => true) 9 (VFun "vsip.math.matvec" "prod") [mat 3 F64 2 5; vec 4 F32 5] = Raises "NameError" [].
Proof. vm_compute. reflexivity. Qed.

(** Defect: cvjdot, cumsum, gemp and gems, and outer and vmmul of arguments of different types, return None without having
    computed or reported anything. *)
Theorem C82_silent_none_refuted :
  forall W ld k i d n j d' m r c x y,
  py W ld k (VFun "vsip.math.matvec" "cvjdot") [vec i d n; vec j d' m] = Returns VNone [] /\
  py W ld k (VFun "vsip.math.matvec" "cumsum") [vec i d n] = Returns VNone [] /\
  py W ld k (VFun "vsip.math.matvec" "gemp") [VNum x; mat i d r c; mat j d' r c; VNum y; mat i d r c] = Returns VNone [] /\
  py W ld k (VFun "vsip.math.matvec" "gems") [VNum x; mat i d r c; VNum y; mat j d' r c] = Returns VNone [] /\
  (d <> d' -> py W ld k (VFun "vsip.math.matvec" "outer") [VNum x; vec i d n; vec j d' m] = Returns VNone []) /\
  (d <> d' -> py W ld k (VFun "vsip.math.matvec" "vmmul") [VInt 0; vec i d n; mat j d' r c] = Returns VNone []).
Proof. exact silent_none_bad. Qed.
Example C82_silent_none_refuted_example :
  py {| w_ok := fun _ => Some true; w_num := fun _ => 0; w_index := fun _ => 0 |} (fun _ => true) 9 (VFun "vsip.math.matvec" "gemp") [VNum 2; mat 3 F64 2 5; mat 4 F64 5 7; VNum 3; mat 5 F64 2 7] = Returns VNone [].
Proof. vm_compute. reflexivity. Qed.

(** llsqsol(a, b): a new matrix with as many rows as [a] has columns and as many columns as [b], which the C++ solver gets as its
    result, together with the blocks of [a] and [b]. *)
Theorem C82_llsqsol :
  forall W ld k i r c j r' c' d,
  is_real d -> 0 <= c -> 0 <= c' ->
  py W ld k (VFun "vsip.math.solvers.llsqsol" "llsqsol") [mat i d r c; mat j d r' c'] =
  new_matrix W c c' (fun h =>
  calling W "llsqsol" [("a", VBlock i d [r; c]); ("b", VBlock j d [r'; c']); ("x", VBlock k d [c; c'])] h (Returns (mat k d c c'))).
Proof. exact llsqsol_ok. Qed.
Example C82_llsqsol_example :
  py {| w_ok := fun _ => Some true; w_num := fun _ => 0; w_index := fun _ => 0 |} (fun _ => true) 9 (VFun "vsip.math.solvers.llsqsol" "llsqsol") [mat 3 F64 5 2; mat 4 F64 5 7] = Returns (mat 9 F64 2 7) [("block", [("r", VInt 2); ("c", VInt 7)]); ("llsqsol", [("a", VBlock 3 F64 [5; 2]); ("b", VBlock 4 F64 [5; 7]); ("x", VBlock 9 F64 [2; 7])])].
Proof. vm_compute. reflexivity. Qed.

(** Defect: covsol and toepsol use names that are not defined and always raise NameError before any C++ function is called. *)
Theorem C82_covsol_toepsol_refuted :
  forall W ld k i r c j r' c' d n m,
  py W ld k (VFun "vsip.math.solvers.covsol" "covsol") [mat i d r c; mat j d r' c'] = Raises "NameError" [] /\
  py W ld k (VFun "vsip.math.solvers.toepsol" "toepsol") [vec i d n; vec j d m] = Raises "NameError" [].
Proof. exact covsol_toepsol_bad. Qed.
Example C82_covsol_toepsol_refuted_example :
  py {| w_ok := fun _ => Some true; w_num := fun _ => 0; w_index := fun _ => 0 |} (fun _ => true) 9 (VFun "vsip.math.solvers.covsol" "covsol") [mat 3 F64 5 2; mat 4 F64 2 7] = Raises "NameError" [].
Proof. vm_compute. reflexivity. Qed.

(** Defect: no LU solver can be made from Python: lud uses a name that is not defined and always raises NameError.  Given one,
    solve would leave out the operation and always raise ArgumentError. *)
Theorem C82_lud_refuted :
  forall W ld k t d n,
  is_real d -> names t d ->
  py W ld k (VClass "vsip.math.solvers.lud" "lud") [VType t; VInt n] = Raises "NameError" [] /\
  forall o op j r c, 0 <= r -> 0 <= c ->
    py W ld k (VMeth "vsip.math.solvers.lud" "lud" "solve" (VInst "vsip.math.solvers.lud" "lud" [("impl_", VObj "lud" d o)]))
      [VEnum "mat_op" op; mat j d r c] =
    new_matrix W r c (Raises "ArgumentError").
Proof. exact lud_bad. Qed.
Example C82_lud_refuted_example :
  py {| w_ok := fun _ => Some true; w_num := fun _ => 0; w_index := fun _ => 0 |} (fun _ => true) 9 (VClass "vsip.math.solvers.lud" "lud") [VType TyFloat; VInt 4] = Raises "NameError" [].
Proof. vm_compute. reflexivity. Qed.

(** Defect: no Cholesky solver can be made from Python: its first argument has a C++ enumeration type for which there is no Python
    type, so neither an int nor any enumeration value that exists is accepted. *)
Theorem C82_chold_refuted :
  forall W ld k t d u n,
  is_real d -> names t d ->
  (forall v, v = VInt u \/ In v (map (fun ty => VEnum ty u)
      ["alg_hint"; "support_region"; "symmetry"; "bias"; "obj_state"; "mat_op"; "product_side"; "storage"]) ->
    py W ld k (VClass "vsip.math.solvers.chold" "chold") [VType t; v; VInt n] = Raises "ArgumentError" []).
Proof. exact chold_bad. Qed.
Example C82_chold_refuted_example :
  py {| w_ok := fun _ => Some true; w_num := fun _ => 0; w_index := fun _ => 0 |} (fun _ => true) 9 (VClass "vsip.math.solvers.chold" "chold") [VType TyFloat; VInt 1; VInt 4] = Raises "ArgumentError" [].
Proof. vm_compute. reflexivity. Qed.

(** qrd(dtype, rows, cols, storage) and its methods decompose, covsol and lsqsol: each argument arrives in its place, the result is
    a new matrix of the shape of [b], for lsqsol with as many rows as the decomposed matrix has columns, and an answer "no"
    becomes ValueError (for decompose, False). *)
Theorem C82_qrd :
  forall W ld k t d r c st,
  is_real d -> names t d -> 0 <= r -> 0 <= c ->
  exists fields,
    let solver := VInst "vsip.math.solvers.qrd" "qrd" fields in
    let method f := VMeth "vsip.math.solvers.qrd" "qrd" f solver in
    py W ld k (VClass "vsip.math.solvers.qrd" "qrd") [VType t; VInt r; VInt c; VEnum "storage" st] =
    calling W "qrd" [("rows", VInt r); ("cols", VInt c); ("s", VEnum "storage" st)] [] (Returns solver) /\
    (forall ld' k' i ri ci,
      py W ld' k' (method "decompose") [mat i d ri ci] =
      asking W "qrd::decompose" [("self", VObj "qrd" d k); ("b", VBlock i d [ri; ci])] [] (Returns (VBool true)) (Returns (VBool false))) /\
    (forall ld' k' i ri ci, 0 <= ri -> 0 <= ci ->
      py W ld' k' (method "covsol") [mat i d ri ci] =
      new_matrix W ri ci (fun h =>
      asking W "qrd::covsol" [("self", VObj "qrd" d k); ("b", VBlock i d [ri; ci]); ("x", VBlock k' d [ri; ci])] h
        (Returns (mat k' d ri ci)) (Raises "ValueError"))) /\
    (forall ld' k' i ri ci, 0 <= ci ->
      py W ld' k' (method "lsqsol") [mat i d ri ci] =
      new_matrix W c ci (fun h =>
      asking W "qrd::lsqsol" [("self", VObj "qrd" d k); ("b", VBlock i d [ri; ci]); ("x", VBlock k' d [c; ci])] h
        (Returns (mat k' d c ci)) (Raises "ValueError"))).
Proof. exact qrd_ok. Qed.
Example C82_qrd_example :
  exists fields, py {| w_ok := fun _ => Some true; w_num := fun _ => 0; w_index := fun _ => 0 |} (fun _ => false) 9 (VClass "vsip.math.solvers.qrd" "qrd") [VType TyFloat; VInt 5; VInt 2; VEnum "storage" 1] =
  Returns (VInst "vsip.math.solvers.qrd" "qrd" fields) [("qrd", [("rows", VInt 5); ("cols", VInt 2); ("s", VEnum "storage" 1)])].
Proof. eexists. vm_compute. reflexivity. Qed.

(** prodq(op, side, b) makes a result with the shape of op(Q) b or b op(Q), where Q is square or, if only its first columns are
    saved, has the columns of the decomposed matrix, and hands operation, side, argument and result over in their places. *)
Theorem C82_qrd_prodq :
  forall W ld k t d r c st op side,
  is_real d -> names t d -> 0 <= r -> 0 <= c ->
  st = 1 \/ st = 2 -> op = 0 \/ op = 1 \/ op = 2 -> side = 0 \/ side = 1 ->
  exists fields,
    let solver := VInst "vsip.math.solvers.qrd" "qrd" fields in
    py W ld k (VClass "vsip.math.solvers.qrd" "qrd") [VType t; VInt r; VInt c; VEnum "storage" st] =
    calling W "qrd" [("rows", VInt r); ("cols", VInt c); ("s", VEnum "storage" st)] [] (Returns solver) /\
    forall ld' k' i ri ci, 0 <= ri -> 0 <= ci ->
      let qr := r in let qc := if st =? 1 then c else r in
      let or := if op =? 0 then qr else qc in let oc := if op =? 0 then qc else qr in
      let xr := if side =? 0 then or else ri in let xc := if side =? 0 then ci else oc in
      py W ld' k' (VMeth "vsip.math.solvers.qrd" "qrd" "prodq" solver) [VEnum "mat_op" op; VEnum "product_side" side; mat i d ri ci] =
      new_matrix W xr xc (fun h =>
      asking W "qrd::prodq"
        [("self", VObj "qrd" d k); ("op", VEnum "mat_op" op); ("side", VEnum "product_side" side);
         ("b", VBlock i d [ri; ci]); ("x", VBlock k' d [xr; xc])] h
        (Returns (mat k' d xr xc)) (Raises "ValueError")).
Proof. exact qrd_prodq_ok. Qed.
Example C82_qrd_prodq_example :
  match py {| w_ok := fun _ => Some true; w_num := fun _ => 0; w_index := fun _ => 0 |} (fun _ => true) 9 (VClass "vsip.math.solvers.qrd" "qrd") [VType TyFloat; VInt 5; VInt 2; VEnum "storage" 1] with
  | Returns q _ => py {| w_ok := fun _ => Some true; w_num := fun _ => 0; w_index := fun _ => 0 |} (fun _ => true) 12 (VMeth "vsip.math.solvers.qrd" "qrd" "prodq" q)
                     [VEnum "mat_op" 1; VEnum "product_side" 0; mat 3 F64 5 7]
  | o => o
  end = Returns (mat 12 F64 2 7)
    [("block", [("r", VInt 2); ("c", VInt 7)]);
     ("qrd::prodq", [("self", VObj "qrd" F64 9); ("op", VEnum "mat_op" 1); ("side", VEnum "product_side" 0);
        ("b", VBlock 3 F64 [5; 7]); ("x", VBlock 12 F64 [2; 7])])].
Proof. vm_compute. reflexivity. Qed.

(** Defect: qrd.rsol takes no operation and hands none over, so that no C++ function fits and it always raises ArgumentError. *)
Theorem C82_qrd_rsol_refuted :
  forall W ld k d o st r c j rj cj x,
  is_real d -> 0 <= rj -> 0 <= cj ->
  py W ld k (VMeth "vsip.math.solvers.qrd" "qrd" "rsol"
      (VInst "vsip.math.solvers.qrd" "qrd"
        [("_rows", VInt r); ("_cols", VInt c); ("qstorage", VEnum "storage" st); ("impl_", VObj "qrd" d o)]))
    [mat j d rj cj; VNum x] =
  new_matrix W rj cj (Raises "ArgumentError").
Proof. exact qrd_rsol_bad. Qed.
Example C82_qrd_rsol_refuted_example :
  match py {| w_ok := fun _ => Some true; w_num := fun _ => 0; w_index := fun _ => 0 |} (fun _ => true) 9 (VClass "vsip.math.solvers.qrd" "qrd") [VType TyFloat; VInt 5; VInt 2; VEnum "storage" 1] with
  | Returns q _ => py {| w_ok := fun _ => Some true; w_num := fun _ => 0; w_index := fun _ => 0 |} (fun _ => true) 12 (VMeth "vsip.math.solvers.qrd" "qrd" "rsol" q) [mat 3 F64 2 7; VNum 1]
  | o => o
  end = Raises "ArgumentError" [("block", [("r", VInt 2); ("c", VInt 7)])].
Proof. vm_compute. reflexivity. Qed.

(** svd(dtype, rows, cols, ustorage, vstorage): decompose returns a new vector of min(rows, cols) singular values, u and v a new
    matrix of the columns low to high. *)
Theorem C82_svd :
  forall W ld k t d r c us vs,
  is_real d -> names t d -> 0 <= r -> 0 <= c ->
  exists fields,
    let solver := VInst "vsip.math.solvers.svd" "svd" fields in
    let method f := VMeth "vsip.math.solvers.svd" "svd" f solver in
    py W ld k (VClass "vsip.math.solvers.svd" "svd") [VType t; VInt r; VInt c; VEnum "storage" us; VEnum "storage" vs] =
    calling W "svd" [("rows", VInt r); ("cols", VInt c); ("ust", VEnum "storage" us); ("vst", VEnum "storage" vs)] [] (Returns solver) /\
    (forall ld' k' i ri ci, 0 <= ri -> 0 <= ci ->
      py W ld' k' (method "decompose") [mat i d ri ci] =
      new_vector W (Z.min ri ci) (fun h =>
      asking W "svd::decompose" [("self", VObj "svd" d k); ("b", VBlock i d [ri; ci]); ("dest", VBlock k' d [Z.min ri ci])] h
        (Returns (vec k' d (Z.min ri ci))) (Raises "ValueError"))) /\
    (forall ld' k' low high, 0 <= low <= high ->
      py W ld' k' (method "u") [VInt low; VInt high] =
      new_matrix W r (high - low + 1) (fun h =>
      asking W "svd::u" [("self", VObj "svd" d k); ("low", VInt low); ("high", VInt high); ("dest", VBlock k' d [r; high - low + 1])] h
        (Returns (mat k' d r (high - low + 1))) (Raises "ValueError"))) /\
    (forall ld' k' low high, 0 <= low <= high ->
      py W ld' k' (method "v") [VInt low; VInt high] =
      new_matrix W c (high - low + 1) (fun h =>
      asking W "svd::v" [("self", VObj "svd" d k); ("low", VInt low); ("high", VInt high); ("dest", VBlock k' d [c; high - low + 1])] h
        (Returns (mat k' d c (high - low + 1))) (Raises "ValueError"))).
Proof. exact svd_ok. Qed.
Example C82_svd_example :
  exists fields, py {| w_ok := fun _ => Some true; w_num := fun _ => 0; w_index := fun _ => 0 |} (fun _ => false) 9 (VClass "vsip.math.solvers.svd" "svd") [VType TyFloat; VInt 5; VInt 2; VEnum "storage" 1; VEnum "storage" 0] =
  Returns (VInst "vsip.math.solvers.svd" "svd" fields) [("svd", [("rows", VInt 5); ("cols", VInt 2); ("ust", VEnum "storage" 1); ("vst", VEnum "storage" 0)])].
Proof. eexists. vm_compute. reflexivity. Qed.

(** Defect: produ and prodv always raise TypeError: a helper method is declared without [self]. *)
Theorem C82_svd_produ_refuted :
  forall W ld k f d o us vs t r c op side j rj cj,
  In f ["produ"; "prodv"] ->
  py W ld k (VMeth "vsip.math.solvers.svd" "svd" f
      (VInst "vsip.math.solvers.svd" "svd"
        [("dtype", VType t); ("_rows", VInt r); ("_cols", VInt c); ("ustorage", VEnum "storage" us); ("vstorage", VEnum "storage" vs);
         ("impl_", VObj "svd" d o)]))
    [VEnum "mat_op" op; VEnum "product_side" side; mat j d rj cj] = Raises "TypeError" [].
Proof. exact svd_produ_bad. Qed.
Example C82_svd_produ_refuted_example :
  match py {| w_ok := fun _ => Some true; w_num := fun _ => 0; w_index := fun _ => 0 |} (fun _ => true) 9 (VClass "vsip.math.solvers.svd" "svd")
    [VType TyFloat; VInt 5; VInt 2; VEnum "storage" 1; VEnum "storage" 0] with
  | Returns q _ => py {| w_ok := fun _ => Some true; w_num := fun _ => 0; w_index := fun _ => 0 |} (fun _ => true) 12 (VMeth "vsip.math.solvers.svd" "svd" "produ" q)
                     [VEnum "mat_op" 0; VEnum "product_side" 0; mat 3 F64 2 7]
  | o => o
  end = Raises "TypeError" [].
Proof. vm_compute. reflexivity. Qed.

(** Defect: no convolution can be made from Python: conv takes no kernel, so that no C++ function fits, and always raises
    ArgumentError. *)
Theorem C82_conv_refuted :
  forall W ld k t d s su i dec nn h,
  is_real d \/ d = C128 -> names t d ->
  py W ld k (VClass "vsip.signal.conv" "conv")
    [VType t; VEnum "symmetry" s; VEnum "support_region" su; VInt i; VInt dec; VInt nn; VEnum "alg_hint" h] = Raises "ArgumentError" [].
Proof. exact conv_bad. Qed.
Example C82_conv_refuted_example :
  py {| w_ok := fun _ => Some true; w_num := fun _ => 0; w_index := fun _ => 0 |} (fun _ => true) 9 (VClass "vsip.signal.conv" "conv") [VType TyFloat; VEnum "symmetry" 0; VEnum "support_region" 1; VInt 64; VInt 1; VInt 0; VEnum "alg_hint" 0] = Raises "ArgumentError" [].
Proof. vm_compute. reflexivity. Qed.

(** Defect: no real correlation can be made from Python: corr hands the support region over first where C++ takes it third, and
    always raises ArgumentError. *)
Theorem C82_corr_refuted :
  forall W ld k t d su r i nn h,
  is_real d -> names t d ->
  py W ld k (VClass "vsip.signal.corr" "corr") [VType t; VEnum "support_region" su; VInt r; VInt i; VInt nn; VEnum "alg_hint" h] =
  Raises "ArgumentError" [].
Proof. exact corr_bad. Qed.
Example C82_corr_refuted_example :
  py {| w_ok := fun _ => Some true; w_num := fun _ => 0; w_index := fun _ => 0 |} (fun _ => true) 9 (VClass "vsip.signal.corr" "corr") [VType TyFloat; VEnum "support_region" 1; VInt 8; VInt 64; VInt 0; VEnum "alg_hint" 0] = Raises "ArgumentError" [].
Proof. vm_compute. reflexivity. Qed.

(** Defect: complex FFTs and correlations raise TypeError, because "dtype in (complex)" is no test for membership in a tuple. *)
Theorem C82_complex_fft_corr_refuted :
  forall W ld k t dir l s nn h su r i,
  names t C128 ->
  py W ld k (VClass "vsip.signal.fft" "fft") [VType t; VInt dir; VInt l; VNum s; VInt nn; VEnum "alg_hint" h] = Raises "TypeError" [] /\
  py W ld k (VClass "vsip.signal.corr" "corr") [VType t; VEnum "support_region" su; VInt r; VInt i; VInt nn; VEnum "alg_hint" h] =
  Raises "TypeError" [].
Proof. exact complex_fft_corr_bad. Qed.
Example C82_complex_fft_corr_refuted_example :
  py {| w_ok := fun _ => Some true; w_num := fun _ => 0; w_index := fun _ => 0 |} (fun _ => true) 9 (VClass "vsip.signal.fft" "fft") [VType TyComplex; VInt (-1); VInt 64; VNum 1; VInt 0; VEnum "alg_hint" 0] = Raises "TypeError" [].
Proof. vm_compute. reflexivity. Qed.

(** Defect: an IIR filter cannot be made from matrices of coefficients: iir hands the matrices over instead of their blocks, and
    always raises ArgumentError. *)
Theorem C82_iir_refuted :
  forall W ld k t d i j na ca nb cb l st nn h,
  is_real d -> names t d ->
  py W ld k (VClass "vsip.signal.iir" "iir")
    [VType t; mat i d na ca; mat j d nb cb; VInt l; VEnum "obj_state" st; VInt nn; VEnum "alg_hint" h] = Raises "ArgumentError" [].
Proof. exact iir_bad. Qed.
Example C82_iir_refuted_example :
  py {| w_ok := fun _ => Some true; w_num := fun _ => 0; w_index := fun _ => 0 |} (fun _ => true) 9 (VClass "vsip.signal.iir" "iir") [VType TyFloat; mat 3 F64 2 3; mat 4 F64 2 2; VInt 64; VEnum "obj_state" 0; VInt 0; VEnum "alg_hint" 0] = Raises "ArgumentError" [].
Proof. vm_compute. reflexivity. Qed.

(** freqswap returns a new view of the same shape, for vectors and matrices, which the C++ function gets as its second argument. *)
Theorem C82_freqswap :
  forall W ld k d,
  is_real d ->
  (forall i n, 0 <= n ->
    py W ld k (VFun "vsip.signal.freqswap" "freqswap") [vec i d n] =
    new_vector W n (fun h => calling W "freqswap" [("in", VBlock i d [n]); ("out", VBlock k d [n])] h (Returns (vec k d n)))) /\
  (forall i r c, 0 <= r -> 0 <= c ->
    py W ld k (VFun "vsip.signal.freqswap" "freqswap") [mat i d r c] =
    new_matrix W r c (fun h => calling W "freqswap" [("in", VBlock i d [r; c]); ("out", VBlock k d [r; c])] h (Returns (mat k d r c)))).
Proof. exact freqswap_ok. Qed.
Example C82_freqswap_example :
  py {| w_ok := fun _ => Some true; w_num := fun _ => 0; w_index := fun _ => 0 |} (fun _ => true) 9 (VFun "vsip.signal.freqswap" "freqswap") [mat 3 F64 2 5] = Returns (mat 9 F64 2 5) [("block", [("r", VInt 2); ("c", VInt 5)]); ("freqswap", [("in", VBlock 3 F64 [2; 5]); ("out", VBlock 9 F64 [2; 5])])].
Proof. vm_compute. reflexivity. Qed.

(** The windows: a new vector of the given type and length, from the C++ function of that name with its parameter. *)
Theorem C82_windows :
  forall W ld k t d n x,
  is_real d -> names t d -> 0 <= n ->
  (forall f, In f ["blackman"; "hanning"] ->
    py W ld k (VFun "vsip.signal.window" f) [VType t; VInt n] = calling W f [("len", VInt n)] [] (Returns (vec k d n))) /\
  py W ld k (VFun "vsip.signal.window" "cheby") [VType t; VInt n; VNum x] =
    calling W "cheby" [("len", VInt n); ("ripple", VNum x)] [] (Returns (vec k d n)) /\
  py W ld k (VFun "vsip.signal.window" "kaiser") [VType t; VInt n; VNum x] =
    calling W "kaiser" [("len", VInt n); ("beta", VNum x)] [] (Returns (vec k d n)).
Proof. exact windows_ok. Qed.
Example C82_windows_example :
  py {| w_ok := fun _ => Some true; w_num := fun _ => 0; w_index := fun _ => 0 |} (fun _ => true) 9 (VFun "vsip.signal.window" "kaiser") [VType TyFloat; VInt 64; VNum 3] = Returns (vec 9 F64 64) [("kaiser", [("len", VInt 64); ("beta", VNum 3)])].
Proof. vm_compute. reflexivity. Qed.

(** clip and invclip return a new view of the shape of the argument; thresholds and replacements arrive in their places. *)
Theorem C82_clip :
  forall W ld k d lt mt ut lc uc,
  is_real d ->
  (forall i n, 0 <= n ->
    py W ld k (VFun "vsip.selgen.clip" "clip") [vec i d n; VNum lt; VNum ut; VNum lc; VNum uc] =
    new_vector W n (fun h =>
    calling W "clip" [("bin", VBlock i d [n]); ("bout", VBlock k d [n]); ("lt", VNum lt); ("ut", VNum ut); ("lc", VNum lc); ("uc", VNum uc)] h
      (Returns (vec k d n)))) /\
  (forall i r c, 0 <= r -> 0 <= c ->
    py W ld k (VFun "vsip.selgen.clip" "clip") [mat i d r c; VNum lt; VNum ut; VNum lc; VNum uc] =
    new_matrix W r c (fun h =>
    calling W "clip" [("bin", VBlock i d [r; c]); ("bout", VBlock k d [r; c]); ("lt", VNum lt); ("ut", VNum ut); ("lc", VNum lc); ("uc", VNum uc)] h
      (Returns (mat k d r c)))) /\
  (forall i n, 0 <= n ->
    py W ld k (VFun "vsip.selgen.clip" "invclip") [vec i d n; VNum lt; VNum mt; VNum ut; VNum lc; VNum uc] =
    new_vector W n (fun h =>
    calling W "invclip" [("bin", VBlock i d [n]); ("bout", VBlock k d [n]); ("lt", VNum lt); ("mt", VNum mt); ("ut", VNum ut);
                         ("lc", VNum lc); ("uc", VNum uc)] h
      (Returns (vec k d n)))) /\
  (forall i r c, 0 <= r -> 0 <= c ->
    py W ld k (VFun "vsip.selgen.clip" "invclip") [mat i d r c; VNum lt; VNum mt; VNum ut; VNum lc; VNum uc] =
    new_matrix W r c (fun h =>
    calling W "invclip" [("bin", VBlock i d [r; c]); ("bout", VBlock k d [r; c]); ("lt", VNum lt); ("mt", VNum mt); ("ut", VNum ut);
                         ("lc", VNum lc); ("uc", VNum uc)] h
      (Returns (mat k d r c)))).
Proof. exact clip_ok. Qed.
Example C82_clip_example :
  py {| w_ok := fun _ => Some true; w_num := fun _ => 0; w_index := fun _ => 0 |} (fun _ => true) 9 (VFun "vsip.selgen.clip" "clip") [vec 3 F32 5; VNum 1; VNum 2; VNum 3; VNum 4] = Returns (vec 9 F32 5) [("block", [("l", VInt 5)]); ("clip", [("bin", VBlock 3 F32 [5]); ("bout", VBlock 9 F32 [5]); ("lt", VNum 1); ("ut", VNum 2); ("lc", VNum 3); ("uc", VNum 4)])].
Proof. vm_compute. reflexivity. Qed.

(** rand(dtype, seed, portable) makes a generator with that seed and portability (0 and false if left out), and loads the
    blocks that its results need; randu and randn return a number, a new vector or a new matrix, as the number of arguments says. *)
Theorem C82_rand :
  forall W ld k t d seed p,
  is_real d \/ d = C128 -> names t d -> 0 <= seed ->
  exists fields,
    let generator := VInst "vsip.random" "rand" fields in
    py W ld k (VClass "vsip.random" "rand") [VType t; VInt seed; VBool p] =
      calling W "rand" [("seed", VInt seed); ("portable", VBool p)] [] (Returns generator) /\
    py W ld k (VClass "vsip.random" "rand") [VType t] =
      calling W "rand" [("seed", VInt 0); ("portable", VBool false)] [] (Returns generator) /\
    (forall ld' k' f, In f [("randu", "rand::randu"); ("randn", "rand::randn")] -> ld' (block_module d) = true ->
      let draw := py W ld' k' (VMeth "vsip.random" "rand" (fst f) generator) in
      let self := ("self", VObj "rand" d k) in
      draw [] = calling W (snd f) [self] []
        (Returns (match d with C128 => VCplx | _ => VNum end (number_from W (snd f) [self]))) /\
      (forall n, 0 <= n -> draw [VInt n] = calling W (snd f) [self; ("l", VInt n)] [] (Returns (vec k' d n))) /\
      (forall r c, 0 <= r -> 0 <= c ->
        draw [VInt r; VInt c] = calling W (snd f) [self; ("r", VInt r); ("c", VInt c)] [] (Returns (mat k' d r c)))).
Proof. exact rand_ok. Qed.
Example C82_rand_example :
  exists fields, py {| w_ok := fun _ => Some true; w_num := fun _ => 0; w_index := fun _ => 0 |} (fun _ => false) 9 (VClass "vsip.random" "rand") [VType TyComplex; VInt 42; VBool true] =
  Returns (VInst "vsip.random" "rand" fields) [("rand", [("seed", VInt 42); ("portable", VBool true)])].
Proof. eexists. vm_compute. reflexivity. Qed.

(** Limitation: windows and clipping for complex types, and random numbers of type complex64, which C++ offers, raise
    AttributeError. *)
Theorem C82_other_types_refuted :
  forall W ld k i n x,
  py W ld k (VFun "vsip.selgen.clip" "clip") [vec i C128 n; VCplx x; VCplx x; VCplx x; VCplx x] = Raises "AttributeError" [] /\
  py W ld k (VFun "vsip.signal.window" "hanning") [VType TyComplex; VInt n] = Raises "AttributeError" [] /\
  py W ld k (VClass "vsip.random" "rand") [VType (NpType C64); VInt n] = Raises "AttributeError" [].
Proof. exact other_types_bad. Qed.
Example C82_other_types_refuted_example :
  py {| w_ok := fun _ => Some true; w_num := fun _ => 0; w_index := fun _ => 0 |} (fun _ => true) 9 (VFun "vsip.signal.window" "hanning") [VType TyComplex; VInt 64] = Raises "AttributeError" [].
Proof. vm_compute. reflexivity. Qed.

(** Defect: a slice of a boolean vector raises ValueError: the module of its type is looked up under numpy.bool_, which is not
    among the names of the boolean type. *)
Theorem C82_bool_slices_refuted :
  forall W ld k i n m,
  py W ld k (VMeth "vsip.vector" "vector" "__getitem__" (vec i B8 n)) [VSlice m] = Raises "ValueError" [].
Proof. exact bool_slices_bad. Qed.
Example C82_bool_slices_refuted_example :
  py {| w_ok := fun _ => Some true; w_num := fun _ => 0; w_index := fun _ => 0 |} (fun _ => true) 9 (VMeth "vsip.vector" "vector" "__getitem__" (vec 3 B8 9)) [VSlice 4] = Raises "ValueError" [].
Proof. vm_compute. reflexivity. Qed.

(** A slice of a vector of any other type is a vector over a new block that C++ makes from the block and the slice. *)
Theorem C82_slices :
  forall W ld k i d n m,
  is_real d \/ is_complex d \/ d = I32 ->
  py W ld k (VMeth "vsip.vector" "vector" "__getitem__" (vec i d n)) [VSlice m] =
  calling W "subblock1" [("b", VBlock i d [n]); ("s", VSlice m)] [] (Returns (vec k d m)).
Proof. exact slices_ok. Qed.
Example C82_slices_example :
  py {| w_ok := fun _ => Some true; w_num := fun _ => 0; w_index := fun _ => 0 |} (fun _ => true) 9 (VMeth "vsip.vector" "vector" "__getitem__" (vec 3 F64 9)) [VSlice 4] = Returns (vec 9 F64 4) [("subblock1", [("b", VBlock 3 F64 [9]); ("s", VSlice 4)])].
Proof. vm_compute. reflexivity. Qed.

Print Assumptions C82_fir.
Print Assumptions C82_fft_forward.
Print Assumptions C82_fftm_forward.
Print Assumptions C82_fft_inverse.
Print Assumptions C82_fftm_inverse.
Print Assumptions C82_fftm_complex.
Print Assumptions C82_unary.
Print Assumptions C82_binary.
Print Assumptions C82_ternary.
Print Assumptions C82_other_result_type.
Print Assumptions C82_result_type_refuted.
Print Assumptions C82_mixed_types_rejected.
Print Assumptions C82_unexported_refuted.
Print Assumptions C82_ite_mask_refuted.
Print Assumptions C82_reductions.
Print Assumptions C82_complex_reductions_refuted.
Print Assumptions C82_dot.
Print Assumptions C82_transposes.
Print Assumptions C82_products.
Print Assumptions C82_matvec_missing_refuted.
Print Assumptions C82_mixed_prod_refuted.
Print Assumptions C82_silent_none_refuted.
Print Assumptions C82_llsqsol.
Print Assumptions C82_covsol_toepsol_refuted.
Print Assumptions C82_lud_refuted.
Print Assumptions C82_chold_refuted.
Print Assumptions C82_qrd.
Print Assumptions C82_qrd_prodq.
Print Assumptions C82_qrd_rsol_refuted.
Print Assumptions C82_svd.
Print Assumptions C82_svd_produ_refuted.
Print Assumptions C82_conv_refuted.
Print Assumptions C82_corr_refuted.
Print Assumptions C82_complex_fft_corr_refuted.
Print Assumptions C82_iir_refuted.
Print Assumptions C82_freqswap.
Print Assumptions C82_windows.
Print Assumptions C82_clip.
Print Assumptions C82_rand.
Print Assumptions C82_other_types_refuted.
Print Assumptions C82_bool_slices_refuted.
Print Assumptions C82_slices.
