(** C79: Python subscripts name the elements Python says they name. *)
From Coq Require Import ZArith List Lia Bool Arith.
From Verif Require Import Base Pyview PyviewProofs.
Import ListNotations.
Local Open Scope nat_scope.
Transparent H64.

(** Abbreviations for the examples: [a:b:k], [:], [::k]. *)
Definition sl (a b k : Z) : pyslice := {| s_start := Some a; s_stop := Some b; s_step := Some k |}.
Definition every (k : Z) : pyslice := {| s_start := None; s_stop := None; s_step := Some k |}.
Definition allof : pyslice := {| s_start := None; s_stop := None; s_step := None |}.
Definition mzs (n : nat) : mem Z := mem_of (map Z.of_nat (seq 0 n)).

(** Vectors: after any number of slicings, element i of the view is, for
    reading, for writing and in the NumPy array made of it, the element of
    the storage that Python's own slicing of the sequence 0, 1, ..., n-1
    would leave at position i; other indices are refused. *)
Theorem C79_vector_slices : forall (V : Type) (base : Z) (n : nat) (path : list pyslice),
  (Z.of_nat n <= 9223372036854775808)%Z -> Forall good_slice path ->
  exists v, subviews1 (new1 base n) path = Some v /\ sz1 v = length (nested (seq 0 n) path) /\
    (forall i p, nth_error (nested (seq 0 n) path) i = Some p -> forall (m : mem V) (x : V),
       get1 v (Z.of_nat i) m = mload m (base + Z.of_nat p)%Z /\
       put1 v (Z.of_nat i) x m = mstore m (base + Z.of_nat p)%Z x /\
       array1 v (Z.of_nat i) m = mload m (base + Z.of_nat p)%Z) /\
    (forall i, ~ (0 <= i < Z.of_nat (length (nested (seq 0 n) path)))%Z -> forall (m : mem V) (x : V),
       get1 v i m = None /\ put1 v i x m = None /\ array1 v i m = None).
Proof. exact @vector_ok. Qed.

(** [v[8:0:-2][1:]] and [v[-3:]] of ten elements. *)
Example C79_vector_slices_ex :
  Forall good_slice [sl 8 0 (-2); sl 1 9 1] /\
  nested (seq 0 10) [sl 8 0 (-2); sl 1 9 1] = [6; 4; 2] /\
  nested (seq 0 10) [{| s_start := Some (-3)%Z; s_stop := None; s_step := None |}] = [7; 8; 9] /\
  exists v, subviews1 (new1 5 10) [sl 8 0 (-2); sl 1 9 1] = Some v /\
    map (fun i => get1 v i (mzs 20)) [0; 1; 2; 3]%Z = [Some 11; Some 9; Some 7; None]%Z.
Proof.
  split; [repeat constructor; discriminate|]. split; [reflexivity|]. split; [reflexivity|].
  eexists. split; [vm_compute; reflexivity|]. vm_compute; reflexivity.
Qed.

(** Real and imaginary parts of complex vectors, sliced before and after:
    the part of the element named, for reading and writing. *)
Theorem C79_part_slices : forall (V : Type) (base : Z) (n : nat) (path path' : list pyslice) (re : bool),
  (Z.of_nat n <= 9223372036854775808)%Z -> Forall good_slice path -> Forall good_slice path' ->
  exists v w, subviews1 (new1 base n) path = Some v /\ subviews1 (component1 v re) path' = Some w /\
    sz1 w = length (nested (seq 0 n) (path ++ path')) /\
    (forall i p, nth_error (nested (seq 0 n) (path ++ path')) i = Some p -> forall (m : mem V) (x : V),
       let a := (base + 2 * Z.of_nat p + (if re then 0 else 1))%Z in
       get1 w (Z.of_nat i) m = mload m a /\ put1 w (Z.of_nat i) x m = mstore m a x).
Proof. exact @component_ok. Qed.

Example C79_part_slices_ex :
  nested (seq 0 4) ([sl 1 4 1] ++ [every (-1)]) = [3; 2; 1] /\
  exists v w, subviews1 (new1 0 4) [sl 1 4 1] = Some v /\ subviews1 (component1 v false) [every (-1)] = Some w /\
    map (fun i => get1 w i (mzs 8)) [0; 1; 2]%Z = [Some 7; Some 5; Some 3]%Z.
Proof. split; [reflexivity|]. eexists _, _. split; [vm_compute; reflexivity|]. split; [vm_compute; reflexivity|]. vm_compute; reflexivity. Qed.

(** Matrices: after any number of two-dimensional slicings, element (i, j)
    is element (rows[i], cols[j]) of the storage.  Missing from the full
    statement: slicing a view whose columns were reversed before or of which
    no column is left, see C79_reversed_refuted. *)
Theorem C79_matrix_slices_partial : forall (V : Type) (base : Z) (r c : nat)
    (path : list (pyslice * pyslice)) (s t : pyslice),
  (Z.of_nat r * Z.of_nat c < 9223372036854775808)%Z -> (Z.of_nat c < 9223372036854775808)%Z ->
  Forall (fun st => good_slice (fst st) /\ (0 < step_of (snd st))%Z) path -> good_slice s -> good_slice t ->
  nested (seq 0 c) (map snd path) <> [] ->
  let rows := nested (seq 0 r) (map fst path ++ [s]) in
  let cols := nested (seq 0 c) (map snd path ++ [t]) in
  exists v, subviews2 (new2 base r c) (path ++ [(s, t)]) = Some v /\ sz2_0 v = length rows /\ sz2_1 v = length cols /\
    (forall i j p q, nth_error rows i = Some p -> nth_error cols j = Some q -> forall (m : mem V) (x : V),
       let a := (base + (Z.of_nat p * Z.of_nat c + Z.of_nat q))%Z in
       get2 v (Z.of_nat i) (Z.of_nat j) m = mload m a /\ put2 v (Z.of_nat i) (Z.of_nat j) x m = mstore m a x /\
       array2 v (Z.of_nat i) (Z.of_nat j) m = mload m a) /\
    (forall i j, ~ ((0 <= i < Z.of_nat (length rows)) /\ (0 <= j < Z.of_nat (length cols)))%Z ->
       forall (m : mem V) (x : V), get2 v i j m = None /\ put2 v i j x m = None /\ array2 v i j m = None).
Proof. exact @matrix_ok. Qed.

(** [m[3:0:-1, 1:][::2, ::-1]] of a 4 x 4 matrix: rows 3 and 1, columns
    3, 2, 1. *)
Example C79_matrix_slices_ex :
  nested (seq 0 4) (map fst [(sl 3 0 (-1), sl 1 4 1)] ++ [every 2]) = [3; 1] /\
  nested (seq 0 4) (map snd [(sl 3 0 (-1), sl 1 4 1)] ++ [every (-1)]) = [3; 2; 1] /\
  exists v, subviews2 (new2 0 4 4) ([(sl 3 0 (-1), sl 1 4 1)] ++ [(every 2, every (-1))]) = Some v /\
    map (fun ij => get2 v (fst ij) (snd ij) (mzs 16)) [(0, 0); (0, 2); (1, 1); (2, 0)]%Z = [Some 15; Some 13; Some 6; None]%Z.
Proof. split; [reflexivity|]. split; [reflexivity|]. eexists. split; [vm_compute; reflexivity|]. vm_compute; reflexivity. Qed.

(** Defect: slicing the columns of a view whose columns were reversed aborts:
    [m[:, ::-1][:, 0:2]]. *)
Theorem C79_reversed_refuted :
  exists v, subviews2 (new2 0 4 4) [(allof, every (-1))] = Some v /\ sz2_1 v = 4 /\
    nested (seq 0 4) [every (-1); sl 0 2 1] = [3; 2] /\
    subblock2 v allof (sl 0 2 1) = None.
Proof. eexists. split; [vm_compute; reflexivity|]. split; [reflexivity|]. split; [vm_compute; reflexivity|]. vm_compute; reflexivity. Qed.

(** Rows and columns: a subscript of a whole matrix with one integer, [m[i]],
    [m[i, s]] and [m[s, j]], names the elements of that row or column, also
    from the end, and can be sliced further.  Missing from the full
    statement: rows and columns of submatrices, see C79_submatrix_row_refuted;
    indices out of range, see C79_row_range_refuted. *)
Theorem C79_lines_partial : forall (V : Type) (base : Z) (r c : nat) (k : subscript) (ps : list nat) (path : list pyslice),
  (Z.of_nat r * Z.of_nat c < 9223372036854775808)%Z -> (Z.of_nat r < 2147483648)%Z -> (Z.of_nat c < 2147483648)%Z ->
  good_subscript k -> line_cells r c k = Some ps -> Forall good_slice path ->
  exists b v, matrix_view (new2 base r c) k = Some (Vec b) /\ subviews1 b path = Some v /\
    names1 (V := V) base v (nested ps path).
Proof. exact @line_view_ok. Qed.

Example C79_lines_ex :
  line_cells 3 4 (Int (-1)) = Some [8; 9; 10; 11] /\
  line_cells 3 4 (SliceInt (every (-1)) 1) = Some [9; 5; 1] /\
  line_cells 3 4 (IntSlice 1 (sl 1 4 2)) = Some [5; 7] /\
  exists b, matrix_view (new2 0 3 4) (SliceInt (every (-1)) 1) = Some (Vec b) /\
    map (fun i => get1 b i (mzs 12)) [0; 1; 2; 3]%Z = [Some 9; Some 5; Some 1; None]%Z.
Proof. split; [reflexivity|]. split; [reflexivity|]. split; [reflexivity|]. eexists. split; [vm_compute; reflexivity|]. vm_compute; reflexivity. Qed.

(** The diagonal of a whole matrix, sliced further. *)
Theorem C79_diagonal_partial : forall (V : Type) (base : Z) (r c : nat) (path : list pyslice),
  (Z.of_nat r * Z.of_nat c < 9223372036854775808)%Z -> (Z.of_nat c < 9223372036854775807)%Z -> Forall good_slice path ->
  exists b v, get_diag (new2 base r c) = Some b /\ subviews1 b path = Some v /\
    names1 (V := V) base v (nested (map (fun i => i * c + i) (seq 0 (Nat.min r c))) path).
Proof. exact @diag_view_ok. Qed.

Example C79_diagonal_ex :
  exists b, get_diag (new2 0 3 4) = Some b /\
    map (fun i => get1 b i (mzs 12)) [0; 1; 2; 3]%Z = [Some 0; Some 5; Some 10; None]%Z.
Proof. eexists. split; [vm_compute; reflexivity|]. vm_compute; reflexivity. Qed.

(** Defect: rows, columns and diagonals of a submatrix are taken from the
    wrong place: row 0, column 0 and the diagonal of [m[1:3, 1:3]] are those
    of [m] itself, because the offset of the submatrix is not added. *)
Theorem C79_submatrix_row_refuted :
  exists v row col dg, subviews2 (new2 0 4 4) [(sl 1 3 1, sl 1 3 1)] = Some v /\
    get2 v 0 0 (mzs 16) = Some 5%Z /\ get2 v 0 1 (mzs 16) = Some 6%Z /\ get2 v 1 0 (mzs 16) = Some 9%Z /\
    get2 v 1 1 (mzs 16) = Some 10%Z /\
    get_row v 0 = Some row /\ map (fun i => get1 row i (mzs 16)) [0; 1]%Z = [Some 0; Some 1]%Z /\
    get_col v 0 = Some col /\ map (fun i => get1 col i (mzs 16)) [0; 1]%Z = [Some 0; Some 4]%Z /\
    get_diag v = Some dg /\ map (fun i => get1 dg i (mzs 16)) [0; 1]%Z = [Some 0; Some 5]%Z.
Proof.
  eexists _, _, _, _. split; [vm_compute; reflexivity|].
  repeat (split; [vm_compute; reflexivity|]). vm_compute; reflexivity.
Qed.

(** Defect: a row of a matrix of every second column consists of neighbouring
    elements, because the stride along the row is taken to be 1:
    [m[:, ::2][1]]. *)
Theorem C79_strided_row_refuted :
  exists v row, subviews2 (new2 0 4 4) [(allof, every 2)] = Some v /\
    map (fun j => get2 v 1 j (mzs 16)) [0; 1]%Z = [Some 4; Some 6]%Z /\
    get_row v 1 = Some row /\ map (fun i => get1 row i (mzs 16)) [0; 1]%Z = [Some 4; Some 5]%Z.
Proof. eexists _, _. repeat (split; [vm_compute; reflexivity|]). vm_compute; reflexivity. Qed.

(** Defect: a row index beyond the last row is accepted: [m[4]] of a 4 x 4
    matrix is a vector whose elements lie behind the matrix. *)
Theorem C79_row_range_refuted :
  exists row, get_row (new2 0 4 4) 4 = Some row /\ sz1 row = 4 /\
    get1 row 0 (mzs 16) = None /\ get1 row 0 (mzs 20) = Some 16%Z.
Proof. eexists. split; [vm_compute; reflexivity|]. repeat split. Qed.

(** Limitation: single elements cannot be named from the end: [v[-1]] and
    [m[-1, -1]] raise an exception for every vector and matrix, although
    [m[-1]] is the last row. *)
Theorem C79_negative_index_refuted : forall (V : Type) (v : pb1) (b : pb2) (i : Z) (m : mem V),
  (i < 0)%Z -> get1 v i m = None /\ (forall j, get2 b i j m = None /\ get2 b j i m = None).
Proof.
  intros V v b i m Hi. unfold get1, get2. rewrite index1_out by lia. split; [reflexivity|].
  intros j. rewrite !index2_out by lia. split; reflexivity.
Qed.

(** Assigning a vector to a slice: the elements named receive the elements
    of the right-hand side in order, nothing else changes.  The two vectors
    have separate storage. *)
Theorem C79_slice_assign : forall (V : Type) (bv bw : Z) (n k : nat)
    (path : list pyslice) (s : pyslice) (path' : list pyslice) (m : mem V),
  (Z.of_nat n <= 9223372036854775808)%Z -> (Z.of_nat k <= 9223372036854775808)%Z ->
  Forall good_slice path -> good_slice s -> Forall good_slice path' ->
  (forall p, p < n -> m (bv + Z.of_nat p)%Z <> None) -> (forall p, p < k -> m (bw + Z.of_nat p)%Z <> None) ->
  (bv + Z.of_nat n <= bw)%Z \/ (bw + Z.of_nat k <= bv)%Z ->
  let target := nested (seq 0 n) (path ++ [s]) in
  let source := nested (seq 0 k) path' in
  length target <= length source ->
  exists v w m', subviews1 (new1 bv n) path = Some v /\ subviews1 (new1 bw k) path' = Some w /\
    vector_setslice v s (VVector w) m = Some m' /\
    (forall i p q, nth_error target i = Some p -> nth_error source i = Some q ->
       m' (bv + Z.of_nat p)%Z = m (bw + Z.of_nat q)%Z) /\
    (forall a, (forall p, In p target -> a <> (bv + Z.of_nat p)%Z) -> m' a = m a).
Proof. exact @vector_assign_ok. Qed.

(** Assigning a scalar to a slice. *)
Theorem C79_slice_fill : forall (V : Type) (base : Z) (n : nat) (path : list pyslice) (s : pyslice) (x : V) (m : mem V),
  (Z.of_nat n <= 9223372036854775808)%Z -> Forall good_slice path -> good_slice s ->
  (forall p, p < n -> m (base + Z.of_nat p)%Z <> None) ->
  let target := nested (seq 0 n) (path ++ [s]) in
  exists v m', subviews1 (new1 base n) path = Some v /\ vector_setslice v s (VScalar x) m = Some m' /\
    (forall p, In p target -> m' (base + Z.of_nat p)%Z = Some x) /\
    (forall a, (forall p, In p target -> a <> (base + Z.of_nat p)%Z) -> m' a = m a).
Proof. exact @vector_scalar_ok. Qed.

(** [v[5:1:-2] = w[1:3]] and [v[5:1:-2] = 42] for vectors of 8 elements. *)
Example C79_slice_assign_ex :
  nested (seq 0 8) [sl 5 1 (-2)] = [5; 3] /\
  exists w m1 m2, subviews1 (new1 8 8) [sl 1 3 1] = Some w /\
    vector_setslice (new1 0 8) (sl 5 1 (-2)) (VVector w) (mzs 16) = Some m1 /\
    map m1 [1; 2; 3; 4; 5; 6; 7; 9]%Z = map Some [1; 2; 10; 4; 9; 6; 7; 9]%Z /\
    vector_setslice (new1 0 8) (sl 5 1 (-2)) (VScalar 42%Z) (mzs 16) = Some m2 /\
    map m2 [1; 2; 3; 4; 5; 6; 7]%Z = map Some [1; 2; 42; 4; 42; 6; 7]%Z.
Proof. split; [reflexivity|]. eexists _, _, _. repeat (split; [vm_compute; reflexivity|]). vm_compute; reflexivity. Qed.

(** Limitation: an assignment between overlapping parts of one vector does
    not see the old values: [v[2::2] = v[:-2:2]] smears the first element,
    and [v[1:] = v[:-1]] is an overlapping memcpy. *)
Theorem C79_overlap_refuted :
  exists w w' m', subblock1 (new1 0 8) (sl 0 (-2) 2) = Some w /\
    vector_setslice (new1 0 8) (sl 2 8 2) (VVector w) (mzs 8) = Some m' /\
    map m' [0; 2; 4; 6]%Z = map Some [0; 0; 0; 0]%Z /\
    subblock1 (new1 0 8) (sl 0 (-1) 1) = Some w' /\
    vector_setslice (new1 0 8) (sl 1 8 1) (VVector w') (mzs 8) = None.
Proof. eexists _, _, _. repeat (split; [vm_compute; reflexivity|]). vm_compute; reflexivity. Qed.

(** Assigning a vector or a scalar to a row, a column or part of one of a
    whole matrix. *)
Theorem C79_line_assign_partial : forall (V : Type) (bm bw : Z) (r c n : nat) (k : subscript) (ps : list nat)
    (path' : list pyslice) (m : mem V),
  (Z.of_nat r * Z.of_nat c < 9223372036854775808)%Z -> (Z.of_nat r < 2147483648)%Z -> (Z.of_nat c < 2147483648)%Z ->
  (Z.of_nat n <= 9223372036854775808)%Z ->
  good_subscript k -> line_cells r c k = Some ps -> Forall good_slice path' ->
  (forall p, p < r * c -> m (bm + Z.of_nat p)%Z <> None) -> (forall p, p < n -> m (bw + Z.of_nat p)%Z <> None) ->
  (bm + Z.of_nat (r * c) <= bw)%Z \/ (bw + Z.of_nat n <= bm)%Z ->
  length ps <= length (nested (seq 0 n) path') ->
  exists w m', subviews1 (new1 bw n) path' = Some w /\ matrix_setitem (new2 bm r c) k (VVector w) m = Some m' /\
    (forall i p q, nth_error ps i = Some p -> nth_error (nested (seq 0 n) path') i = Some q ->
       m' (bm + Z.of_nat p)%Z = m (bw + Z.of_nat q)%Z) /\
    (forall a, (forall p, In p ps -> a <> (bm + Z.of_nat p)%Z) -> m' a = m a).
Proof. exact @line_assign_ok. Qed.

Theorem C79_line_fill_partial : forall (V : Type) (bm : Z) (r c : nat) (k : subscript) (ps : list nat) (x : V) (m : mem V),
  (Z.of_nat r * Z.of_nat c < 9223372036854775808)%Z -> (Z.of_nat r < 2147483648)%Z -> (Z.of_nat c < 2147483648)%Z ->
  good_subscript k -> line_cells r c k = Some ps ->
  (forall p, p < r * c -> m (bm + Z.of_nat p)%Z <> None) ->
  exists m', matrix_setitem (new2 bm r c) k (VScalar x) m = Some m' /\
    (forall p, In p ps -> m' (bm + Z.of_nat p)%Z = Some x) /\
    (forall a, (forall p, In p ps -> a <> (bm + Z.of_nat p)%Z) -> m' a = m a).
Proof. exact @line_scalar_ok. Qed.

(** [m[::2, 1] = v] and [m[1] = 7] for a 3 x 3 matrix. *)
Example C79_line_assign_ex :
  line_cells 3 3 (SliceInt (every 2) 1) = Some [1; 7] /\
  exists m1 m2, matrix_setitem (new2 0 3 3) (SliceInt (every 2) 1) (VVector (new1 9 2)) (mzs 11) = Some m1 /\
    map m1 [0; 1; 2; 3; 4; 5; 6; 7; 8]%Z = map Some [0; 9; 2; 3; 4; 5; 6; 10; 8]%Z /\
    matrix_setitem (new2 0 3 3) (Int 1) (VScalar 7%Z) (mzs 11) = Some m2 /\
    map m2 [0; 1; 2; 3; 4; 5; 6; 7; 8]%Z = map Some [0; 1; 2; 7; 7; 7; 6; 7; 8]%Z.
Proof. split; [reflexivity|]. eexists _, _. repeat (split; [vm_compute; reflexivity|]). vm_compute; reflexivity. Qed.

(** Assigning a matrix of the same shape, or a scalar, to a submatrix;
    missing as in C79_matrix_slices_partial. *)
Theorem C79_submatrix_assign_partial : forall (V : Type) (bm bw : Z) (r c r' c' : nat)
    (path path' : list (pyslice * pyslice)) (s t s' t' : pyslice) (m : mem V),
  (Z.of_nat r * Z.of_nat c < 9223372036854775808)%Z -> (Z.of_nat c < 9223372036854775808)%Z ->
  (Z.of_nat r' * Z.of_nat c' < 9223372036854775808)%Z -> (Z.of_nat c' < 9223372036854775808)%Z ->
  Forall (fun st => good_slice (fst st) /\ (0 < step_of (snd st))%Z) path -> good_slice s -> good_slice t ->
  Forall (fun st => good_slice (fst st) /\ (0 < step_of (snd st))%Z) path' -> good_slice s' -> good_slice t' ->
  nested (seq 0 c) (map snd path) <> [] -> nested (seq 0 c') (map snd path') <> [] ->
  (forall p, p < r * c -> m (bm + Z.of_nat p)%Z <> None) -> (forall p, p < r' * c' -> m (bw + Z.of_nat p)%Z <> None) ->
  (bm + Z.of_nat (r * c) <= bw)%Z \/ (bw + Z.of_nat (r' * c') <= bm)%Z ->
  let rows := nested (seq 0 r) (map fst path ++ [s]) in
  let cols := nested (seq 0 c) (map snd path ++ [t]) in
  let rows' := nested (seq 0 r') (map fst path' ++ [s']) in
  let cols' := nested (seq 0 c') (map snd path' ++ [t']) in
  length rows = length rows' -> length cols = length cols' -> rows <> [] -> cols <> [] ->
  exists u w m', subviews2 (new2 bm r c) path = Some u /\ subviews2 (new2 bw r' c') (path' ++ [(s', t')]) = Some w /\
    matrix_setitem u (SliceSlice s t) (VMatrix w) m = Some m' /\
    (forall i j p q p' q', nth_error rows i = Some p -> nth_error cols j = Some q ->
       nth_error rows' i = Some p' -> nth_error cols' j = Some q' ->
       m' (bm + Z.of_nat (p * c + q))%Z = m (bw + Z.of_nat (p' * c' + q'))%Z) /\
    (forall a, (forall p q, In p rows -> In q cols -> a <> (bm + Z.of_nat (p * c + q))%Z) -> m' a = m a).
Proof. exact @matrix_assign_ok. Qed.

Theorem C79_submatrix_fill_partial : forall (V : Type) (bm : Z) (r c : nat)
    (path : list (pyslice * pyslice)) (s t : pyslice) (x : V) (m : mem V),
  (Z.of_nat r * Z.of_nat c < 9223372036854775808)%Z -> (Z.of_nat c < 9223372036854775808)%Z ->
  Forall (fun st => good_slice (fst st) /\ (0 < step_of (snd st))%Z) path -> good_slice s -> good_slice t ->
  nested (seq 0 c) (map snd path) <> [] ->
  (forall p, p < r * c -> m (bm + Z.of_nat p)%Z <> None) ->
  let rows := nested (seq 0 r) (map fst path ++ [s]) in
  let cols := nested (seq 0 c) (map snd path ++ [t]) in
  exists u m', subviews2 (new2 bm r c) path = Some u /\ matrix_setitem u (SliceSlice s t) (VScalar x) m = Some m' /\
    (forall p q, In p rows -> In q cols -> m' (bm + Z.of_nat (p * c + q))%Z = Some x) /\
    (forall a, (forall p q, In p rows -> In q cols -> a <> (bm + Z.of_nat (p * c + q))%Z) -> m' a = m a).
Proof. exact @matrix_scalar_ok. Qed.

(** [m[::2, 1:] = w] and [m[::2, 1:] = 7] for a 3 x 3 matrix and a 2 x 2 one. *)
Example C79_submatrix_assign_ex :
  exists w m1 m2, subviews2 (new2 9 2 2) ([] ++ [(allof, every (-1))]) = Some w /\
    matrix_setitem (new2 0 3 3) (SliceSlice (every 2) (sl 1 3 1)) (VMatrix w) (mzs 13) = Some m1 /\
    map m1 [0; 1; 2; 3; 4; 5; 6; 7; 8]%Z = map Some [0; 10; 9; 3; 4; 5; 6; 12; 11]%Z /\
    matrix_setitem (new2 0 3 3) (SliceSlice (every 2) (sl 1 3 1)) (VScalar 7%Z) (mzs 13) = Some m2 /\
    map m2 [0; 1; 2; 3; 4; 5; 6; 7; 8]%Z = map Some [0; 7; 7; 3; 4; 5; 6; 7; 7]%Z.
Proof. eexists _, _, _. repeat (split; [vm_compute; reflexivity|]). vm_compute; reflexivity. Qed.

(** Defect: the shapes of the two sides of a matrix assignment are not
    compared: assigning a 1 x 1 submatrix to a 2 x 2 one copies its
    neighbours, and reads behind a 1 x 1 matrix. *)
Theorem C79_shape_refuted :
  exists w m', subviews2 (new2 9 3 3) [(sl 0 1 1, sl 0 1 1)] = Some w /\ sz2_0 w = 1 /\ sz2_1 w = 1 /\
    matrix_setitem (new2 0 3 3) (SliceSlice (sl 0 2 1) (sl 0 2 1)) (VMatrix w) (mzs 18) = Some m' /\
    map m' [0; 1; 3; 4]%Z = map Some [9; 10; 12; 13]%Z /\
    matrix_setitem (new2 0 3 3) (SliceSlice (sl 0 2 1) (sl 0 2 1)) (VMatrix (new2 9 1 1)) (mzs 10) = None.
Proof. eexists _, _. repeat (split; [vm_compute; reflexivity|]). vm_compute; reflexivity. Qed.

(** Copies, from which all binary operators start: [v.copy()] has the
    elements of [v] in storage of its own. *)
Theorem C79_copy : forall (V : Type) (base nb : Z) (n : nat) (path : list pyslice) (m : mem V),
  (Z.of_nat n <= 9223372036854775808)%Z -> Forall good_slice path ->
  (forall p, p < n -> m (base + Z.of_nat p)%Z <> None) ->
  let l := nested (seq 0 n) path in
  (Z.of_nat (length l) <= 9223372036854775808)%Z ->
  (forall p, p < length l -> m (nb + Z.of_nat p)%Z <> None) ->
  (base + Z.of_nat n <= nb)%Z \/ (nb + Z.of_nat (length l) <= base)%Z ->
  exists v w m', subviews1 (new1 base n) path = Some v /\ copy_block1 v nb m = Some (w, m') /\ sz1 w = length l /\
    (forall i p, nth_error l i = Some p -> get1 w (Z.of_nat i) m' = m (base + Z.of_nat p)%Z) /\
    (forall a, ~ (nb <= a < nb + Z.of_nat (length l))%Z -> m' a = m a).
Proof. exact @copy_ok. Qed.

Example C79_copy_ex :
  exists v w m', subviews1 (new1 0 6) [every (-2)] = Some v /\ copy_block1 v 6 (mzs 9) = Some (w, m') /\
    map (fun i => get1 w i m') [0; 1; 2]%Z = map Some [5; 3; 1]%Z.
Proof. eexists _, _, _. repeat (split; [vm_compute; reflexivity|]). vm_compute; reflexivity. Qed.

(** The copy of a submatrix; missing as in C79_matrix_slices_partial. *)
Theorem C79_matrix_copy_partial : forall (V : Type) (base nb : Z) (r c : nat)
    (path : list (pyslice * pyslice)) (s t : pyslice) (m : mem V),
  (Z.of_nat r * Z.of_nat c < 9223372036854775808)%Z -> (Z.of_nat c < 9223372036854775808)%Z ->
  Forall (fun st => good_slice (fst st) /\ (0 < step_of (snd st))%Z) path -> good_slice s -> good_slice t ->
  nested (seq 0 c) (map snd path) <> [] ->
  (forall p, p < r * c -> m (base + Z.of_nat p)%Z <> None) ->
  let rows := nested (seq 0 r) (map fst path ++ [s]) in
  let cols := nested (seq 0 c) (map snd path ++ [t]) in
  rows <> [] -> cols <> [] ->
  (Z.of_nat (length rows) * Z.of_nat (length cols) < 9223372036854775808)%Z ->
  (forall p, p < length rows * length cols -> m (nb + Z.of_nat p)%Z <> None) ->
  (base + Z.of_nat (r * c) <= nb)%Z \/ (nb + Z.of_nat (length rows * length cols) <= base)%Z ->
  exists v w m', subviews2 (new2 base r c) (path ++ [(s, t)]) = Some v /\ copy_block2 v nb m = Some (w, m') /\
    sz2_0 w = length rows /\ sz2_1 w = length cols /\
    (forall i j p q, nth_error rows i = Some p -> nth_error cols j = Some q ->
       get2 w (Z.of_nat i) (Z.of_nat j) m' = m (base + Z.of_nat (p * c + q))%Z) /\
    (forall a, ~ (nb <= a < nb + Z.of_nat (length rows * length cols))%Z -> m' a = m a).
Proof. exact @copy2_block_ok. Qed.

(** The copy of [m[::-2, 1:]] of a 3 x 3 matrix. *)
Example C79_matrix_copy_ex :
  exists v w m', subviews2 (new2 0 3 3) ([] ++ [(every (-2), sl 1 3 1)]) = Some v /\ copy_block2 v 9 (mzs 13) = Some (w, m') /\
    map (fun ij => get2 w (fst ij) (snd ij) m') [(0, 0); (0, 1); (1, 0); (1, 1); (2, 0)]%Z = [Some 7; Some 8; Some 1; Some 2; None]%Z.
Proof. eexists _, _, _. repeat (split; [vm_compute; reflexivity|]). vm_compute; reflexivity. Qed.

(** A slice alone, [m[s]], takes rows. *)
Theorem C79_rows : forall (V : Type) (base : Z) (r c : nat) (s : pyslice),
  (Z.of_nat r * Z.of_nat c < 9223372036854775808)%Z -> (0 < Z.of_nat c < 9223372036854775808)%Z -> good_slice s ->
  let rows := items 0 (seq 0 r) s in
  exists v, matrix_view (new2 base r c) (Slice s) = Some (Mat v) /\ sz2_0 v = length rows /\ sz2_1 v = c /\
    (forall i j p, nth_error rows i = Some p -> j < c -> forall (m : mem V) (x : V),
       let a := (base + (Z.of_nat p * Z.of_nat c + Z.of_nat j))%Z in
       get2 v (Z.of_nat i) (Z.of_nat j) m = mload m a /\ put2 v (Z.of_nat i) (Z.of_nat j) x m = mstore m a x /\
       array2 v (Z.of_nat i) (Z.of_nat j) m = mload m a).
Proof. exact @rows_ok. Qed.

Example C79_rows_ex :
  items 0 (seq 0 3) (every (-1)) = [2; 1; 0] /\
  exists v, matrix_view (new2 0 3 2) (Slice (every (-1))) = Some (Mat v) /\
    map (fun ij => get2 v (fst ij) (snd ij) (mzs 6)) [(0, 0); (0, 1); (2, 1)]%Z = map Some [4; 5; 1]%Z.
Proof. split; [reflexivity|]. eexists. split; [vm_compute; reflexivity|]. vm_compute; reflexivity. Qed.

(** Elements of complex vectors: the real and the imaginary part of the
    element named. *)
Theorem C79_complex_elements : forall (V : Type) (base : Z) (n : nat) (path : list pyslice),
  (Z.of_nat n <= 9223372036854775808)%Z -> Forall good_slice path ->
  exists v, subviews1 (new1 base n) path = Some v /\
    (forall i p, nth_error (nested (seq 0 n) path) i = Some p -> forall (m : mem V) x y,
       m (base + 2 * Z.of_nat p)%Z = Some x -> m (base + 2 * Z.of_nat p + 1)%Z = Some y ->
       cget1 v (Z.of_nat i) m = Some (x, y)).
Proof. exact @complex_ok. Qed.

Example C79_complex_elements_ex :
  exists v, subviews1 (new1 0 4) [every (-1)] = Some v /\ cget1 v 0 (mzs 8) = Some (6, 7)%Z.
Proof. eexists. split; [vm_compute; reflexivity|]. vm_compute; reflexivity. Qed.

(** Real and imaginary parts of complex submatrices; missing as in
    C79_matrix_slices_partial. *)
Theorem C79_matrix_parts_partial : forall (V : Type) (base : Z) (r c : nat) (path : list (pyslice * pyslice)) (s t : pyslice) (re : bool),
  (Z.of_nat r * Z.of_nat c < 9223372036854775808)%Z -> (Z.of_nat c < 9223372036854775808)%Z ->
  Forall (fun st => good_slice (fst st) /\ (0 < step_of (snd st))%Z) path -> good_slice s -> good_slice t ->
  nested (seq 0 c) (map snd path) <> [] ->
  let rows := nested (seq 0 r) (map fst path ++ [s]) in
  let cols := nested (seq 0 c) (map snd path ++ [t]) in
  exists v, subviews2 (new2 base r c) (path ++ [(s, t)]) = Some v /\
    sz2_0 (component2 v re) = length rows /\ sz2_1 (component2 v re) = length cols /\
    (forall i j p q, nth_error rows i = Some p -> nth_error cols j = Some q -> forall (m : mem V) (x : V),
       let a := (base + 2 * (Z.of_nat p * Z.of_nat c + Z.of_nat q) + (if re then 0 else 1))%Z in
       get2 (component2 v re) (Z.of_nat i) (Z.of_nat j) m = mload m a /\
       put2 (component2 v re) (Z.of_nat i) (Z.of_nat j) x m = mstore m a x).
Proof. exact @component2_ok. Qed.

Example C79_matrix_parts_ex :
  exists v, subviews2 (new2 0 2 2) ([] ++ [(every (-1), sl 1 2 1)]) = Some v /\
    map (fun ij => get2 (component2 v false) (fst ij) (snd ij) (mzs 8)) [(0, 0); (1, 0)]%Z = map Some [7; 3]%Z.
Proof. eexists. split; [vm_compute; reflexivity|]. vm_compute; reflexivity. Qed.

(** Defect: copies and NumPy arrays of the real part of a complex vector are
    wrong, hence all arithmetic on it: of the vector 0+1i, 2+3i, 4+5i, 6+7i
    the real parts are 0, 2, 4, 6, but [v.real().copy()] and
    [array(v.real())] have 0, 1, 2, 3. *)
Theorem C79_part_copy_refuted :
  let re := component1 (new1 0 4) true in
  map (fun i => get1 re i (mzs 12)) [0; 1; 2; 3]%Z = map Some [0; 2; 4; 6]%Z /\
  map (fun i => array1 re i (mzs 12)) [0; 1; 2; 3]%Z = map Some [0; 1; 2; 3]%Z /\
  exists w m', copy_block1 re 8 (mzs 12) = Some (w, m') /\
    map (fun i => get1 w i m') [0; 1; 2; 3]%Z = map Some [0; 1; 2; 3]%Z.
Proof.
  cbv zeta. split; [vm_compute; reflexivity|]. split; [vm_compute; reflexivity|].
  eexists _, _. split; [vm_compute; reflexivity|]. vm_compute; reflexivity.
Qed.

(** Construction: a vector filled with a floating-point value, a matrix
    filled with any number, and both without a value, have the shape and the
    elements asked for.  Missing from the full statement: the value zero and
    vectors filled with integers, see the next two theorems. *)
Theorem C79_construct_partial : forall (n r c z : Z) (v : pynum),
  (0 <= n)%Z -> (0 <= r)%Z -> (0 <= c)%Z -> z <> 0%Z -> v <> PInt 0 -> v <> PFloat 0 ->
  py_vector n (Some (PFloat z)) = Some {| m_shape := [n]; m_init := Some z |} /\
  py_matrix r c (Some v) = Some {| m_shape := [r; c]; m_init := Some (match v with PInt x | PFloat x => x end) |} /\
  py_vector n None = Some {| m_shape := [n]; m_init := None |} /\
  py_matrix r c None = Some {| m_shape := [r; c]; m_init := None |}.
Proof.
  intros n r c z v Hn Hr Hc Hz H1 H2. split; [exact (vector_fill n z Hn Hz)|]. split.
  - apply (matrix_fill r c v Hr Hc). destruct v as [x|x]; cbn; intros ->; contradiction.
  - split; [exact (proj1 (shape_only n c Hn Hc))|exact (proj2 (shape_only r c Hr Hc))].
Qed.

Example C79_construct_ex :
  py_vector 8 (Some (PFloat 3)) = Some {| m_shape := [8%Z]; m_init := Some 3%Z |} /\
  py_matrix 2 3 (Some (PInt 5)) = Some {| m_shape := [2; 3]%Z; m_init := Some 5%Z |}.
Proof. split; reflexivity. Qed.

(** Defect: a vector or matrix to be filled with zero is not initialised at
    all, because zero counts as no value. *)
Theorem C79_fill_zero_refuted : forall (n r c : Z), (0 <= n)%Z -> (0 <= r)%Z -> (0 <= c)%Z ->
  py_vector n (Some (PFloat 0)) = Some {| m_shape := [n]; m_init := None |} /\
  py_matrix r c (Some (PFloat 0)) = Some {| m_shape := [r; c]; m_init := None |}.
Proof.
  intros n r c Hn Hr Hc. exact (conj (proj1 (shape_only n c Hn Hc)) (proj2 (shape_only r c Hr Hc))).
Qed.

(** Defect: a vector of 8 elements to be filled with the integer 3 gets an
    uninitialised 8 x 3 block: the overload for matrices takes the value for
    a number of columns. *)
Theorem C79_fill_integer_refuted :
  py_vector 8 (Some (PInt 3)) = Some {| m_shape := [8; 3]%Z; m_init := None |}.
Proof. reflexivity. Qed.

(** Defect: the number of rows of a matrix without rows is reported as its
    number of columns. *)
Theorem C79_rows_refuted :
  exists v, subviews2 (new2 0 4 4) [(sl 2 2 1, allof)] = Some v /\ sz2_0 v = 0 /\ matrix_size v 0 = 4%Z.
Proof. eexists. split; [vm_compute; reflexivity|]. split; reflexivity. Qed.

(** Defect: the method [submatrix], documented as another spelling of a
    subscript with two slices, always raises an exception. *)
Theorem C79_submatrix_method_refuted : forall (b : pb2) (s t : pyslice), submatrix b s t = None.
Proof. reflexivity. Qed.

Print Assumptions C79_vector_slices.
Print Assumptions C79_part_slices.
Print Assumptions C79_matrix_slices_partial.
Print Assumptions C79_reversed_refuted.
Print Assumptions C79_lines_partial.
Print Assumptions C79_diagonal_partial.
Print Assumptions C79_submatrix_row_refuted.
Print Assumptions C79_strided_row_refuted.
Print Assumptions C79_row_range_refuted.
Print Assumptions C79_negative_index_refuted.
Print Assumptions C79_slice_assign.
Print Assumptions C79_slice_fill.
Print Assumptions C79_overlap_refuted.
Print Assumptions C79_line_assign_partial.
Print Assumptions C79_line_fill_partial.
Print Assumptions C79_submatrix_assign_partial.
Print Assumptions C79_submatrix_fill_partial.
Print Assumptions C79_shape_refuted.
Print Assumptions C79_copy.
Print Assumptions C79_part_copy_refuted.
Print Assumptions C79_construct_partial.
Print Assumptions C79_fill_zero_refuted.
Print Assumptions C79_fill_integer_refuted.
Print Assumptions C79_rows_refuted.
Print Assumptions C79_submatrix_method_refuted.
Print Assumptions C79_matrix_copy_partial.
Print Assumptions C79_rows.
Print Assumptions C79_complex_elements.
Print Assumptions C79_matrix_parts_partial.
