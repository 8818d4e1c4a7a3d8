(** Model of storing views in HDF5 files (ovxx/io/hdf5.hpp) and images in PNG
    files (ovxx/io/png.hpp).  The views and the direct data access to them
    are those of Views.v and Dda.v; the libraries HDF5 and libpng are given by
    their documented behaviour.  An exception is an outcome; a failed
    assertion, an abort and undefined behaviour are [None].
    Simplifications: a file is opened and closed in one scope, so no file is
    open twice, and a dataset object does not outlive the file object; views
    are local; an identifier made by H5Dget_type or H5Tcreate that is never
    closed is not modelled; running out of disk space is not modelled. *)
From Coq Require Import String.
From Coq Require Import ZArith List Lia Bool Arith.
From Verif Require Import Base Domain Traversal Layout Views Dda.
Import ListNotations.
Local Open Scope Z_scope.

Fixpoint mapM {A B} (f : A -> option B) (l : list A) : option (list B) :=
  match l with [] => Some [] | x :: r => y <- f x ;; ys <- mapM f r ;; Some (y :: ys) end.

(** hdf5.hpp 50-81: the value types with traits. *)
Inductive vtype := TFloat | TDouble | TInt | TCFloat | TCDouble.

Section Elements.
Context {V : Type}.

(** A view as the functions below see it: its block (of memory [o_mem]), the
    value type, the layout of the block it is a view of, the address of that
    block and the size of an element (Dda.v).  [o_copy]: the block's
    storage format is not [array] (split complex), which forces a copy. *)
Record vobj := { o_mem : nat; o_type : vtype; o_order : order; o_packing : packing; o_view : view;
                 o_copy : bool; o_base : Z; o_elem : Z }.
(** Memory of the program: the elements of each block. *)
Definition mems := nat -> mem V.
Definition set_mem (M : mems) (b : nat) (m : mem V) : mems := fun c => if Nat.eqb c b then m else M c.

(** hdf5.hpp 135 and 156, png.hpp 132 and 180: the requested layout,
    Layout<dim, tuple<0,1,2>, dense>. *)
Definition dense_request (D : nat) : request := {| r_order := Some (seq 0 D); r_packing := P_dense |}.
Definition window_of (o : vobj) : option window :=
  open_window (dense_request (dim (o_view o))) (o_order o) (o_packing o) (o_view o) (o_copy o) (o_base o) (o_elem o).
(** [fresh l]: what newly allocated memory of layout [l] contains. *)
Context (fresh : applied -> mem V) (fuel : nat).
Definition buffer_of (w : window) : mem V := match w with InBlock => fun _ => None | InBuffer l => fresh l end.
(** The number of elements handed to the library. *)
Definition count (ext : list Z) : nat := Z.to_nat (fold_right Z.mul 1 ext).

(** Element k from the pointer on. *)
Definition peek (v : view) (w : window) (s : @state V) (k : nat) : option V :=
  mload (match w with InBlock => blk s | InBuffer _ => buf s end) (wptr v w + Z.of_nat k).
Definition poke (v : view) (w : window) (s : @state V) (k : nat) (x : V) : option state :=
  match w with
  | InBlock => m <- mstore (blk s) (wptr v w + Z.of_nat k) x ;; Some (mk m (buf s) true)
  | InBuffer _ => b <- mstore (buf s) (wptr v w + Z.of_nat k) x ;; Some (mk (blk s) b true)
  end.
Fixpoint poke_all (v : view) (w : window) (s : @state V) (k : nat) (xs : list V) : option state :=
  match xs with [] => Some s | x :: r => s' <- poke v w s k x ;; poke_all v w s' (S k) r end.

(** dda::Data<B, in, layout> data(v.block()); a library function that reads
    [n] elements from data.ptr(). *)
Definition linear_read (o : vobj) (M : mems) (n : nat) : option (list V) :=
  w <- window_of o ;;
  s <- open fuel {| p_in := true; p_out := false |} (o_view o) w (M (o_mem o)) (buffer_of w) ;;
  mapM (peek (o_view o) w s) (seq 0 n).
(** dda::Data<B, out, layout> data(v.block()); a library function that
    writes [xs] from data.ptr() on; destructor.  Calling ptr() marks the data
    as changed, whether or not the library writes. *)
Definition linear_write (o : vobj) (M : mems) (xs : list V) : option mems :=
  w <- window_of o ;;
  s <- open fuel {| p_in := false; p_out := true |} (o_view o) w (M (o_mem o)) (buffer_of w) ;;
  s <- poke_all (o_view o) w (mk (blk s) (buf s) true) 0 xs ;;
  s <- sync_out fuel {| p_in := false; p_out := true |} true (o_view o) w s ;;
  Some (set_mem M (o_mem o) (blk s)).

(** * HDF5 *)

(** A dataset: type, extent, elements in row-major order. *)
Record dset := { d_type : vtype; d_dims : list Z; d_vals : list V }.
(** A file: not one of HDF5, or its datasets. *)
Inductive content := Foreign | Datasets (f : string -> option dset).
Definition disk := string -> option content.
Definition set_file (d : disk) (n : string) (c : content) : disk := fun n' => if String.eqb n' n then Some c else d n'.
Definition set_dset (f : string -> option dset) (n : string) (x : dset) : string -> option dset :=
  fun n' => if String.eqb n' n then Some x else f n'.

(** H5Dread and the conversion of elements: numbers to numbers, complex to
    complex; [None] between numbers and pairs of numbers, for which H5Dread
    returns an error. *)
Context (convert : vtype -> vtype -> option (V -> V)).
(** File names that the program may create. *)
Context (writable : string -> bool).

Inductive outcome := Done | Threw.
Definition state5 : Type := (disk * mems)%type.
Inductive mode := Read | Write.
Inductive fop := Put (name : string) (o : vobj) | Get (name : string) (o : vobj).

(** hdf5.hpp 138-158: create_dataset(name), then dataset::write.  H5Dcreate
    fails in a file opened for reading and for a name in use; neither its
    result nor that of H5Dwrite is looked at. *)
Definition ds_write (md : mode) (f : string -> option dset) (name : string) (o : vobj) (M : mems)
  : option (string -> option dset) :=
  let ext := sizes (o_view o) in
  xs <- linear_read o M (count ext) ;;
  match md, f name with
  | Write, None => Some (set_dset f name {| d_type := o_type o; d_dims := ext; d_vals := xs |})
  | _, _ => Some f
  end.
(** hdf5.hpp 119-136: dataset::read; the status of H5Dread is ignored. *)
Definition ds_read (d : dset) (o : vobj) (M : mems) : option (outcome * mems) :=
  let ext := sizes (o_view o) in
  if negb (Nat.eqb (length (d_dims d)) (length ext)) then Some (Threw, M) else
  if negb (forallb (fun p => fst p =? snd p) (combine (d_dims d) ext)) then Some (Threw, M) else
  let xs := match convert (d_type d) (o_type o) with Some f => map f (d_vals d) | None => [] end in
  M <- linear_write o M xs ;; Some (Done, M).
(** One use of a dataset of an open file: hdf5.hpp 162-173 (constructor,
    open_dataset throws if there is none), 89-90 (destructor). *)
Definition use_dset (md : mode) (f : string -> option dset) (M : mems) (op : fop)
  : option (outcome * (string -> option dset) * mems) :=
  match op with
  | Put name o => f <- ds_write md f name o M ;; Some (Done, f, M)
  | Get name o => match f name with
                  | None => Some (Threw, f, M)
                  | Some d => r <- ds_read d o M ;; Some (fst r, f, snd r)
                  end
  end.
(** Uses one after the other; an exception ends the scope. *)
Fixpoint use_all (md : mode) (f : string -> option dset) (M : mems) (ops : list fop)
  : option (outcome * (string -> option dset) * mems) :=
  match ops with
  | [] => Some (Done, f, M)
  | op :: r => t <- use_dset md f M op ;;
               match t with (Done, f, M) => use_all md f M r | (Threw, f, M) => Some (Threw, f, M) end
  end.
(** hdf5.hpp 177-193: file f(name, mode); uses; destructor.  [Write] is any
    mode but the character r.  H5Fopen needs an
    existing HDF5 file; H5Fcreate with H5F_ACC_TRUNC empties an existing
    one. *)
Definition file_scope (name : string) (md : mode) (ops : list fop) (s : state5) : option (outcome * state5) :=
  let '(d, M) := s in
  match md, d name with
  | Read, Some (Datasets f) => t <- use_all Read f M ops ;; let '(r, f, M) := t in Some (r, (d, M))
  | Read, _ => Some (Threw, s)
  | Write, _ =>
      if writable name then
        t <- use_all Write (fun _ => None) M ops ;; let '(r, f, M) := t in Some (r, (set_file d name (Datasets f), M))
      else Some (Threw, s)
  end.
(** hdf5.hpp 199-205 and 207-213: the short-hand functions. *)
Definition hdf5_read (file name : string) (o : vobj) (s : state5) := file_scope file Read [Get name o] s.
Definition hdf5_write (file name : string) (o : vobj) (s : state5) := file_scope file Write [Put name o] s.
(** hdf5.hpp 110-116: has_value_type<T>(); 92-98: query_dimensionality();
    99-109: query_extent<D>(), which asserts D after having filled an array
    of D extents. *)
Definition vtype_eqb (a b : vtype) : bool :=
  match a, b with
  | TFloat, TFloat | TDouble, TDouble | TInt, TInt | TCFloat, TCFloat | TCDouble, TCDouble => true
  | _, _ => false
  end.
Definition has_value_type (d : dset) (t : vtype) : bool := vtype_eqb (d_type d) t.
Definition query_dimensionality (d : dset) : nat := length (d_dims d).
Definition query_extent (d : dset) (D : nat) : option (list Z) := assert (Nat.eqb D (length (d_dims d))) ;; Some (d_dims d).

(** A program: scopes with files and any other work on its memory; it
    catches the exceptions. *)
Inductive action := InFile (name : string) (md : mode) (ops : list fop) | Work (f : mems -> mems).
Fixpoint program (l : list action) (s : state5) : option state5 :=
  match l with
  | [] => Some s
  | InFile n md ops :: r => t <- file_scope n md ops s ;; program r (snd t)
  | Work f :: r => program r (fst s, f (snd s))
  end.

(** * PNG *)

(** An element in memory: [o_elem] bytes. *)
Context (bytes : V -> list Z) (unbytes : list Z -> V).

(** png.hpp 57-67, 76-86: colour types, info. *)
Inductive color := Gray | GrayAlpha | Palette | Rgb | Rgba.
Record info := { i_width : Z; i_height : Z; i_depth : Z; i_color : color }.
(** libpng: channels of a colour type; combinations of depth and colour
    type that png_set_IHDR accepts (otherwise it calls the error function
    and aborts); bytes of a row. *)
Definition channels (c : color) : Z := match c with Gray | Palette => 1 | GrayAlpha => 2 | Rgb => 3 | Rgba => 4 end.
Definition ihdr_ok (i : info) : bool :=
  (0 <? i_width i) && (i_width i <? 2147483648) && (0 <? i_height i) && (i_height i <? 2147483648) &&
  match i_color i with
  | Gray => existsb (Z.eqb (i_depth i)) [1; 2; 4; 8; 16]
  | Palette => existsb (Z.eqb (i_depth i)) [1; 2; 4; 8]
  | _ => existsb (Z.eqb (i_depth i)) [8; 16]
  end.
Definition rowbytes (i : info) : Z := (i_width i * i_depth i * channels (i_color i) + 7) / 8.
(** An image file: header and the bytes of each row (libpng compresses,
    interlaces and filters them and undoes it on reading). *)
Record png := { g_info : info; g_rows : list (list Z) }.

Definition slice (l : list Z) (a n : nat) : list Z := firstn n (skipn a l).
(** png.hpp 154-166 (constructor of encoder) and 170-193 (encode). *)
Definition encode (i : info) (o : vobj) (M : mems) : option png :=
  assert (ihdr_ok i) ;;
  let ext := sizes (o_view o) in
  assert (Nat.eqb (length ext) 2) ;;
  assert ((at_ ext 0 =? i_height i) && (at_ ext 1 =? i_width i)) ;;
  assert (o_elem o =? (i_depth i * channels (i_color i)) / 8) ;;
  xs <- linear_read o M (count ext) ;;
  let all := concat (map bytes xs) in
  let rb := Z.to_nat (rowbytes i) in
  assert (Nat.leb (Z.to_nat (i_height i) * rb) (length all)) ;;
  Some {| g_info := i; g_rows := map (fun r => slice all (r * rb) rb) (seq 0 (Z.to_nat (i_height i))) |}.
(** n bytes at a time. *)
Fixpoint chunks (k : nat) (n : nat) (l : list Z) : list (list Z) :=
  match k with O => [] | S k => firstn n l :: chunks k n (skipn n l) end.
(** png.hpp 119-142 (decode); line 123 takes the height for the width. *)
Definition decode (g : png) (o : vobj) (M : mems) : option mems :=
  let i := g_info g in
  let height := i_height i in
  let width := i_height i in
  let ext := sizes (o_view o) in
  assert (Nat.eqb (length ext) 2) ;;
  assert ((at_ ext 0 =? height) && (at_ ext 1 =? width)) ;;
  assert (o_elem o =? (i_depth i * channels (i_color i)) / 8) ;;
  let all := concat (g_rows g) in
  assert (Nat.leb (length all) (count ext * Z.to_nat (o_elem o))) ;;
  linear_write o M (map unbytes (chunks (length all / Z.to_nat (o_elem o)) (Z.to_nat (o_elem o)) all)).

(** * Specification *)

(** What the user's view must be: a well-formed view without repeated
    elements and not empty, of an allocated block with the layout its type
    says, of a size that the machine can address. *)
Definition good_view (o : vobj) (M : mems) : Prop :=
  wf (o_view o) /\ no_repeat (o_view o) /\ Forall (fun n => 0 < n) (sizes (o_view o)) /\
  make_layout (o_order o) (o_packing o) (root_ext (o_view o)) = Some (root_layout (o_view o)) /\
  Forall (fun n => 0 <= n < 9223372036854775808) (root_ext (o_view o)) /\
  fold_right Z.mul 1 (sizes (o_view o)) < 9223372036854775808 /\
  allocated (M (o_mem o)) (total_size (root_layout (o_view o))).
(** Newly allocated memory has the size asked for. *)
Definition allocates : Prop := forall l, allocated (fresh l) (total_size l).
(** The element of a view at an index. *)
Definition element (o : vobj) (M : mems) (i : list Z) : option V := get (o_view o) (M (o_mem o)) i.
(** Everything but the elements of the view is as before. *)
Definition only_elements (o : vobj) (M M' : mems) : Prop :=
  rest_same (o_view o) (M (o_mem o)) (M' (o_mem o)) /\ forall b, b <> o_mem o -> M' b = M b.
(** The action does not open the file for writing. *)
Definition keeps (file : string) (a : action) : Prop :=
  match a with InFile n Write _ => n <> file | _ => True end.
(** Samples of a pixel, and the images that whole-byte elements can hold
    (PNG specification, tables 11.1 and 6.1). *)
Definition samples (c : color) : Z := match c with Gray => 1 | GrayAlpha => 2 | Palette => 1 | Rgb => 3 | Rgba => 4 end.
Definition storable (i : info) : Prop :=
  0 < i_width i < 2147483648 /\ 0 < i_height i < 2147483648 /\
  (i_depth i = 8 \/ i_depth i = 16 /\ i_color i <> Palette).
(** The elements are what the image's pixels are: so many bytes each. *)
Definition pixels (i : info) (o : vobj) : Prop :=
  8 * o_elem o = i_depth i * samples (i_color i) /\ forall x : V, length (bytes x) = Z.to_nat (o_elem o).
(** The file's rows have the length that the header says. *)
Definition wellformed (g : png) : Prop :=
  length (g_rows g) = Z.to_nat (i_height (g_info g)) /\
  Forall (fun r => 8 * Z.of_nat (length r) = i_width (g_info g) * i_depth (g_info g) * samples (i_color (g_info g))) (g_rows g).
End Elements.
