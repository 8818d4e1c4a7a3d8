(** Model of the vectors and matrices of the Python interface
    (python/src/vector.py, python/src/matrix.py, python/src/_block.py,
    python/src/block_api.hpp, src/ovxx/python/block.hpp): construction,
    subscripts with integers and slices, rows, columns, diagonals, real and
    imaginary parts, assignment to subscripts, copies and NumPy arrays.
    A view holds an offset, sizes and strides into the storage of the block
    it was made from.  Offsets and element indices are std::size_t (modulo
    2^64), strides std::ptrdiff_t; a product of a huge step and a stride is
    taken to wrap around, as the target does.  A raised Python exception, a
    failed assertion and undefined behaviour are [None].
    The storage is a memory of elements starting at address [base]; for a
    block of complex numbers it is a memory of reals, the two parts of
    element k being in cells 2k and 2k+1.
    Not modelled: distributed blocks, storage on a device (Device.v), 3-D
    blocks (never exported), compound assignment operators and comparison
    (elementwise loops over the modelled get and put). *)
From Coq Require Import String.
From Coq Require Import ZArith List Lia Bool Arith.
From Verif Require Import Base Copy.
Import ListNotations.
Local Open Scope Z_scope.

(** A Python slice object. *)
Record pyslice := { s_start : option Z; s_stop : option Z; s_step : option Z }.

(** PySlice_GetIndicesEx of the CPython library (Objects/sliceobject.c), as
    documented: start, step and number of elements for a sequence of length
    [n]; a zero step is an error.  Integers beyond Py_ssize_t, which CPython
    clamps, are not treated specially: the elements named are the same. *)
Definition get_indices (s : pyslice) (n : Z) : option (Z * Z * Z) :=
  let step := match s_step s with Some k => k | None => 1 end in
  assert (negb (step =? 0)) ;;
  let defstart := if step <? 0 then n - 1 else 0 in
  let defstop := if step <? 0 then -1 else n in
  let adjust v := let v := if v <? 0 then v + n else v in
                  if v <? 0 then (if step <? 0 then -1 else 0)
                  else if n <=? v then (if step <? 0 then n - 1 else n) else v in
  let start := match s_start s with Some v => adjust v | None => defstart end in
  let stop := match s_stop s with Some v => adjust v | None => defstop end in
  let len := if step <? 0 then (if start <=? stop then 0 else (stop - start + 1) ÷ step + 1)
             else (if stop <=? start then 0 else (stop - start - 1) ÷ step + 1) in
  Some (start, step, len).

(** vsip/domain.hpp 108-200: Domain<1>; the constructor asserts that the
    last element is not negative. *)
Record dom := { d_first : Z; d_stride : Z; d_len : Z }.
Definition mk_dom (i s len : Z) : option dom :=
  assert ((len =? 0) || (0 <=? s64 (i + s * (len - 1)))) ;;
  Some {| d_first := i; d_stride := s; d_len := len |}.

(** block_api.hpp 270-281: slice_to_domain.  The status of
    PySlice_GetIndicesEx is ignored, so after an error the results are
    indeterminate. *)
Definition slice_to_domain (s : pyslice) (offset stride : Z) (size : nat) : option dom :=
  r <- get_indices s (Z.of_nat size) ;;
  let '(start, step, len) := r in
  mk_dom (u64 (offset + start * stride)) (s64 (step * stride)) len.

(** python/block.hpp 209-420: Block<1,T> and Block<2,T>.  [part1] is [None]
    for a block with storage of its own type, [Some true] and [Some false]
    for the real and the imaginary part of a complex block (sm_proxy,
    139-193). *)
Record pb1 := { o1 : Z; st1 : Z; sz1 : nat; part1 : option bool; base1 : Z }.
Record pb2 := { o2 : Z; st2_0 : Z; st2_1 : Z; sz2_0 : nat; sz2_1 : nat; part2 : option bool; base2 : Z }.

(** python/block.hpp 232-256 (constructors), layout.hpp 618-676: a new block
    is dense and row-major. *)
Definition new1 (base : Z) (n : nat) : pb1 := {| o1 := 0; st1 := 1; sz1 := n; part1 := None; base1 := base |}.
Definition new2 (base : Z) (r c : nat) : pb2 :=
  {| o2 := 0; st2_0 := Z.of_nat c; st2_1 := 1; sz2_0 := r; sz2_1 := c; part2 := None; base2 := base |}.

(** python/block.hpp 258-270, layout.hpp 593-604: the sub-block constructor. *)
Definition sub1 (part : option bool) (base : Z) (d : dom) : pb1 :=
  {| o1 := u64 (d_first d); st1 := d_stride d; sz1 := Z.to_nat (d_len d); part1 := part; base1 := base |}.
Definition sub2 (part : option bool) (base : Z) (di dj : dom) : pb2 :=
  {| o2 := u64 (d_first di + d_first dj); st2_0 := d_stride di; st2_1 := d_stride dj;
     sz2_0 := Z.to_nat (d_len di); sz2_1 := Z.to_nat (d_len dj); part2 := part; base2 := base |}.

(** block_api.hpp 283-288 (subblock1) and 290-297 (subblock2). *)
Definition subblock1 (b : pb1) (s : pyslice) : option pb1 :=
  d <- slice_to_domain s (o1 b) (st1 b) (sz1 b) ;;
  Some (sub1 (part1 b) (base1 b) d).
Definition subblock2 (b : pb2) (i j : pyslice) : option pb2 :=
  di <- slice_to_domain i (o2 b) (st2_0 b) (sz2_0 b) ;;
  dj <- slice_to_domain j 0 (st2_1 b) (sz2_1 b) ;;
  Some (sub2 (part2 b) (base2 b) di dj).

(** block_api.hpp 299-305 (get_row), 307-313 (get_col), 315-320 (diag).  The
    index is a C int; Python integers outside its range raise an exception. *)
Definition in_int (i : Z) : bool := (-2147483648 <=? i) && (i <? 2147483648).
Definition get_row (b : pb2) (i : Z) : option pb1 :=
  assert (in_int i) ;;
  let i := if i <? 0 then i + Z.of_nat (sz2_0 b) else i in
  d <- mk_dom (u64 (i * st2_0 b)) 1 (Z.of_nat (sz2_1 b)) ;;
  Some (sub1 (part2 b) (base2 b) d).
Definition get_col (b : pb2) (i : Z) : option pb1 :=
  assert (in_int i) ;;
  let i := if i <? 0 then i + Z.of_nat (sz2_1 b) else i in
  d <- mk_dom (u64 (i * st2_1 b)) (st2_0 b) (Z.of_nat (sz2_0 b)) ;;
  Some (sub1 (part2 b) (base2 b) d).
Definition get_diag (b : pb2) : option pb1 :=
  d <- mk_dom 0 (s64 (st2_0 b + st2_1 b)) (Z.min (Z.of_nat (sz2_0 b)) (Z.of_nat (sz2_1 b))) ;;
  Some (sub1 (part2 b) (base2 b) d).

(** python/block.hpp 271-279: real and imaginary parts of a complex block. *)
Definition component1 (b : pb1) (re : bool) : pb1 :=
  {| o1 := o1 b; st1 := st1 b; sz1 := sz1 b; part1 := Some re; base1 := base1 b |}.
Definition component2 (b : pb2) (re : bool) : pb2 :=
  {| o2 := o2 b; st2_0 := st2_0 b; st2_1 := st2_1 b; sz2_0 := sz2_0 b; sz2_1 := sz2_1 b;
     part2 := Some re; base2 := base2 b |}.

Section Access.
Context {V : Type}.

(** sm_proxy::get and put (python/block.hpp 160-171): the cell of storage
    element [k]. *)
Definition cell (part : option bool) (base k : Z) : Z :=
  match part with None => base + k | Some true => base + 2 * k | Some false => base + 2 * k + 1 end.

(** vector.py 231-245 [v[i]], 247-270 [v[i] = x]; block_api.hpp 52-62,
    python/block.hpp 303-307, 325-329.  A negative index is not convertible
    to std::size_t and raises OverflowError. *)
Definition index1 (b : pb1) (i : Z) : option Z :=
  assert ((0 <=? i) && (i <? Z.of_nat (sz1 b))) ;;
  Some (cell (part1 b) (base1 b) (u64 (o1 b + u64 (i * st1 b)))).
Definition get1 (b : pb1) (i : Z) (m : mem V) : option V := a <- index1 b i ;; mload m a.
Definition put1 (b : pb1) (i : Z) (x : V) (m : mem V) : option (mem V) := a <- index1 b i ;; mstore m a x.
(** The same for matrices: matrix.py 284-314, 316-363; block_api.hpp 88-101,
    python/block.hpp 308-312, 330-334; layout.hpp 684-689. *)
Definition index2 (b : pb2) (i j : Z) : option Z :=
  assert ((0 <=? i) && (i <? Z.of_nat (sz2_0 b)) && (0 <=? j) && (j <? Z.of_nat (sz2_1 b))) ;;
  Some (cell (part2 b) (base2 b) (u64 (o2 b + u64 (i * st2_0 b + j * st2_1 b)))).
Definition get2 (b : pb2) (i j : Z) (m : mem V) : option V := a <- index2 b i j ;; mload m a.
Definition put2 (b : pb2) (i j : Z) (x : V) (m : mem V) : option (mem V) := a <- index2 b i j ;; mstore m a x.
(** Elements of a complex block: both cells. *)
Definition cget1 (b : pb1) (i : Z) (m : mem V) : option (V * V) :=
  x <- get1 (component1 b true) i m ;; y <- get1 (component1 b false) i m ;; Some (x, y).

(** matrix.py 284-314: [m[i]]. *)
Inductive subscript :=
| Int (i : Z) | Slice (s : pyslice) | IntInt (i j : Z) | SliceSlice (s0 s1 : pyslice)
| SliceInt (s0 : pyslice) (j : Z) | IntSlice (i : Z) (s1 : pyslice).
Inductive view := Vec (b : pb1) | Mat (b : pb2).
Definition from0 : pyslice := {| s_start := Some 0; s_stop := None; s_step := None |}.
Definition matrix_view (b : pb2) (k : subscript) : option view :=
  match k with
  | Slice s => r <- subblock2 b s from0 ;; Some (Mat r)
  | Int i => r <- get_row b i ;; Some (Vec r)
  | SliceSlice s0 s1 => r <- subblock2 b s0 s1 ;; Some (Mat r)
  | SliceInt s0 j => c <- get_col b j ;; r <- subblock1 c s0 ;; Some (Vec r)
  | IntSlice i s1 => c <- get_row b i ;; r <- subblock1 c s1 ;; Some (Vec r)
  | IntInt _ _ => None (* an element, see [get2] *)
  end.

(** python/block.hpp 192-197, 408-409: ptr().  For the parts of complex
    blocks the pointer into the reals is advanced by the offset, which
    counts complex elements. *)
Definition ptr1 (b : pb1) : Z := match part1 b with Some false => base1 b + 1 | _ => base1 b end + o1 b.
Definition ptr2 (b : pb2) : Z := match part2 b with Some false => base2 b + 1 | _ => base2 b end + o2 b.

(** block_api.hpp 230-248: the NumPy array made of a block: shape, strides
    and data pointer of the block, in elements.  NumPy checks the index. *)
Definition array1 (b : pb1) (i : Z) (m : mem V) : option V :=
  assert ((0 <=? i) && (i <? Z.of_nat (sz1 b))) ;; mload m (ptr1 b + i * st1 b).
Definition array2 (b : pb2) (i j : Z) (m : mem V) : option V :=
  assert ((0 <=? i) && (i <? Z.of_nat (sz2_0 b)) && (0 <=? j) && (j <? Z.of_nat (sz2_1 b))) ;;
  mload m (ptr2 b + i * st2_0 b + j * st2_1 b).

(** block_api.hpp 335-340: assign, the library's assignment; Python blocks
    have direct data access at no cost, so back end be::copy is used
    (Copy.v).  python/block.hpp 503-517: they are declared row-major. *)
Definition data1 (b : pb1) : dv1 := {| p1 := ptr1 b; s1 := st1 b; n1 := sz1 b |}.
Definition data2 (b : pb2) : dv2 := {| p2 := ptr2 b; s2_0 := st2_0 b; s2_1 := st2_1 b; n2_0 := sz2_0 b; n2_1 := sz2_1 b |}.
Definition assign1 (b w : pb1) (m : mem V) : option (mem V) := copy1 None (data1 b) (data1 w) m.
Definition assign2 (b w : pb2) (m : mem V) : option (mem V) := copy2 Row2 Row2 (data2 b) (data2 w) m.
(** block_api.hpp 342-347: assign_scalar; a scalar has no data to access, so
    be::loop_fusion is used (loop_fusion.hpp 23-62): put of every element. *)
Definition assign_scalar1 (b : pb1) (x : V) (m : mem V) : option (mem V) :=
  loop (fun i m => put1 b (Z.of_nat i) x m) 0 (sz1 b) m.
Definition assign_scalar2 (b : pb2) (x : V) (m : mem V) : option (mem V) :=
  loop (fun i m => loop (fun j m => put2 b (Z.of_nat i) (Z.of_nat j) x m) 0 (sz2_1 b) m) 0 (sz2_0 b) m.

(** vector.py 247-270: [v[s] = w] for a vector or a scalar [w]. *)
Inductive value := VScalar (x : V) | VVector (w : pb1) | VMatrix (w : pb2).
Definition is_all (s : pyslice) : bool :=
  match s with {| s_start := None; s_stop := None; s_step := None |} => true | _ => false end.
Definition assign_value1 (b : pb1) (v : value) (m : mem V) : option (mem V) :=
  match v with VScalar x => assign_scalar1 b x m | VVector w => assign1 b w m | VMatrix _ => None end.
Definition vector_setslice (b : pb1) (s : pyslice) (v : value) (m : mem V) : option (mem V) :=
  if is_all s then assign_value1 b v m else r <- subblock1 b s ;; assign_value1 r v m.
(** matrix.py 342-363: [m[i] = w]. *)
Definition assign_value2 (b : pb2) (v : value) (m : mem V) : option (mem V) :=
  match v with VScalar x => assign_scalar2 b x m | VMatrix w => assign2 b w m | VVector _ => None end.
Definition matrix_setitem (b : pb2) (k : subscript) (v : value) (m : mem V) : option (mem V) :=
  match k with
  | Slice s => r <- subblock2 b s from0 ;; assign_value2 r v m
  | Int i => r <- get_row b i ;; assign_value1 r v m
  | SliceSlice s0 s1 => if is_all s0 && is_all s1 then assign_value2 b v m
                        else r <- subblock2 b s0 s1 ;; assign_value2 r v m
  | SliceInt s0 j => c <- get_col b j ;; r <- subblock1 c s0 ;; assign_value1 r v m
  | IntSlice i s1 => c <- get_row b i ;; r <- subblock1 c s1 ;; assign_value1 r v m
  | IntInt i j => match v with VScalar x => put2 b i j x m | _ => None end
  end.

(** block_api.hpp 349-356: copy, into a new block whose storage is at [nb]. *)
Definition copy_block1 (b : pb1) (nb : Z) (m : mem V) : option (pb1 * mem V) :=
  let c := new1 nb (sz1 b) in
  m <- assign1 c b m ;; Some (c, m).
Definition copy_block2 (b : pb2) (nb : Z) (m : mem V) : option (pb2 * mem V) :=
  let c := new2 nb (sz2_0 b) (sz2_1 b) in
  m <- assign2 c b m ;; Some (c, m).
End Access.

(** matrix.py 65-68: [m.size(d)] is [d == 0 and rows or cols]. *)
Definition matrix_size (b : pb2) (d : Z) : Z :=
  if (d =? 0) && negb (Z.of_nat (sz2_0 b) =? 0) then Z.of_nat (sz2_0 b) else Z.of_nat (sz2_1 b).

(** matrix.py 91-95: [m.submatrix(s0, s1)] calls [_block.submatrix]; the
    names module _block defines (_block.py 8-69). *)
Definition block_module : list string := ["import_module"; "numpy"; "block"; "subblock"]%string.
Definition submatrix (b : pb2) (s0 s1 : pyslice) : option pb2 :=
  assert (existsb (String.eqb "submatrix") block_module) ;; subblock2 b s0 s1.

(** Numbers handed over by Python code. *)
Inductive pynum := PInt (z : Z) | PFloat (z : Z). (* floats that are whole numbers *)
Definition truthy (x : pynum) : bool := match x with PInt z | PFloat z => negb (z =? 0) end.
Definition as_number (x : pynum) : Z := match x with PInt z | PFloat z => z end.
(** What a call of the extension module's [block] makes: shape and initial
    value of the elements ([None]: indeterminate). *)
Record made := { m_shape : list Z; m_init : option Z }.
(** Conversion to length_type: non-negative integers only. *)
Definition as_length (x : pynum) : option Z :=
  match x with PInt z => if 0 <=? z then Some z else None | PFloat _ => None end.
(** block_api.hpp 441-445 for D = 1 and then D = 2 (_block_d.cpp and the
    other modules): the overloads of [block], in the order of their
    definition.  The overloads taking one argument are one function. *)
Definition over_init1 (a : list pynum) : option made :=
  match a with
  | [l; v] => n <- as_length l ;; Some {| m_shape := [n]; m_init := Some (as_number v) |}
  | _ => None
  end.
Definition over_one (a : list pynum) : option made :=
  match a with [l] => n <- as_length l ;; Some {| m_shape := [n]; m_init := None |} | _ => None end.
Definition over_shape2 (a : list pynum) : option made :=
  match a with
  | [r; c] => r <- as_length r ;; c <- as_length c ;; Some {| m_shape := [r; c]; m_init := None |}
  | _ => None
  end.
Definition over_init2 (a : list pynum) : option made :=
  match a with
  | [r; c; v] => r <- as_length r ;; c <- as_length c ;; Some {| m_shape := [r; c]; m_init := Some (as_number v) |}
  | _ => None
  end.
Definition overloads : list (list pynum -> option made) :=
  [over_init1; over_one; over_shape2; over_init2; over_one].
(** Boost.Python (documented): overloads are tried in the reverse order of
    their definition; the first whose arguments convert is called. *)
Fixpoint first_match (fs : list (list pynum -> option made)) (a : list pynum) : option made :=
  match fs with [] => None | f :: r => match f a with Some x => Some x | None => first_match r a end end.
Definition mod_block (a : list pynum) : option made := first_match (rev overloads) a.

(** _block.py 11-50: [block(dtype, shape)] and [block(dtype, shape, value)]:
    [value = len(args) == 3 and args[2] or None], then
    [value and mod.block(shape..., value) or mod.block(shape...)]; a block
    object counts as true. *)
Definition py_block (shape : list Z) (arg : option pynum) : option made :=
  let value := match arg with Some x => if truthy x then Some x else None | None => None end in
  assert ((Nat.leb 1 (List.length shape)) && (Nat.leb (List.length shape) 3)) ;;
  match value with
  | Some x => mod_block (map PInt shape ++ [x])
  | None => mod_block (map PInt shape)
  end.
(** vector.py 15-46 and matrix.py 15-49: the positional constructors. *)
Definition py_vector (n : Z) (arg : option pynum) : option made := py_block [n] arg.
Definition py_matrix (r c : Z) (arg : option pynum) : option made := py_block [r; c] arg.

(** * Specification *)
Local Open Scope nat_scope.

(** Which positions of a sequence of length [n] a slice names, in order
    (Python Library Reference, Sequence Types, notes 3 to 5): bounds count
    from the end if negative and are limited to the sequence; an omitted
    bound is the end of the sequence where the slice starts or stops; from
    [start] every [step]th position before [stop] is taken. *)
Definition limit (lo hi v : Z) : Z := Z.max lo (Z.min hi v).
Definition bound (n : nat) (lo hi : Z) (v : option Z) (omitted : Z) : Z :=
  match v with
  | None => omitted
  | Some v => limit lo hi (if v <? 0 then v + Z.of_nat n else v)%Z
  end.
Definition positions (s : pyslice) (n : nat) : list nat :=
  let step := match s_step s with Some k => k | None => 1%Z end in
  let N := Z.of_nat n in
  if (0 <? step)%Z then
    let start := bound n 0 N (s_start s) 0 in
    let stop := bound n 0 N (s_stop s) N in
    filter (fun x => let x := Z.of_nat x in (start <=? x) && (x <? stop) && ((x - start) mod step =? 0))%Z (seq 0 n)
  else
    let start := bound n (-1) (N - 1) (s_start s) (N - 1) in
    let stop := bound n (-1) (N - 1) (s_stop s) (-1) in
    filter (fun x => let x := Z.of_nat x in (stop <? x) && (x <=? start) && ((start - x) mod (- step) =? 0))%Z
           (rev (seq 0 n)).
(** Slicing a list: the items at those positions. *)
Definition items {X} (d : X) (l : list X) (s : pyslice) : list X :=
  map (fun p => nth p l d) (positions s (length l)).
(** [v[s1][s2]...]: which positions of [v] are left. *)
Definition nested (l : list nat) (path : list pyslice) : list nat := fold_left (items 0) path l.
(** The step of a slice; a slice Python accepts has a step other than 0. *)
Definition step_of (s : pyslice) : Z := match s_step s with Some k => k | None => 1%Z end.
Definition good_slice (s : pyslice) : Prop := step_of s <> 0%Z.

(** [v[s1][s2]...] and [m[s1,t1][s2,t2]...] of the model. *)
Fixpoint subviews1 (b : pb1) (path : list pyslice) : option pb1 :=
  match path with [] => Some b | s :: r => b' <- subblock1 b s ;; subviews1 b' r end.
Fixpoint subviews2 (b : pb2) (path : list (pyslice * pyslice)) : option pb2 :=
  match path with [] => Some b | (s, t) :: r => b' <- subblock2 b s t ;; subviews2 b' r end.

(** The storage elements of row [i] and of column [j] of an r x c matrix;
    negative indices count from the end. *)
Definition wrap (n : nat) (i : Z) : nat := Z.to_nat (if (i <? 0)%Z then i + Z.of_nat n else i).
Definition row_cells (r c : nat) (i : Z) : list nat := map (fun j => wrap r i * c + j) (seq 0 c).
Definition col_cells (r c : nat) (j : Z) : list nat := map (fun i => i * c + wrap c j) (seq 0 r).
(** [v] names exactly the listed elements of the storage at [base], in
    order: for reading, for writing, and as a NumPy array. *)
Definition names1 {V} (base : Z) (v : pb1) (ps : list nat) : Prop :=
  sz1 v = length ps /\
  (forall i p, nth_error ps i = Some p -> forall (m : mem V) (x : V),
     get1 v (Z.of_nat i) m = mload m (base + Z.of_nat p)%Z /\
     put1 v (Z.of_nat i) x m = mstore m (base + Z.of_nat p)%Z x /\
     array1 v (Z.of_nat i) m = mload m (base + Z.of_nat p)%Z).

(** The elements of an r x c matrix that a subscript with exactly one
    integer names: a row, a column, or part of one. *)
Definition line_cells (r c : nat) (k : subscript) : option (list nat) :=
  let in_range n i := ((- Z.of_nat n <=? i) && (i <? Z.of_nat n))%Z in
  match k with
  | Int i => if in_range r i then Some (row_cells r c i) else None
  | IntSlice i s => if in_range r i then Some (items 0 (row_cells r c i) s) else None
  | SliceInt s j => if in_range c j then Some (items 0 (col_cells r c j) s) else None
  | _ => None
  end.
Definition good_subscript (k : subscript) : Prop :=
  match k with
  | Slice s | IntSlice _ s | SliceInt s _ => good_slice s
  | SliceSlice s t => good_slice s /\ good_slice t
  | _ => True
  end.
