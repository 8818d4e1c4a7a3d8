(** C80: views stored in HDF5 files and images in PNG files. *)
From Coq Require Import String.
From Coq Require Import ZArith List Lia Bool Arith.
From Verif Require Import Base Domain Traversal Layout LayoutProofs Views Dda FileIO FileIOProofs.
Import ListNotations.

Local Open Scope string_scope.
Local Open Scope Z_scope.

(** Views written under different names to a file opened for writing: after
    that, whatever else the program does without opening that file for
    writing again, reading a name into any view of the same shape succeeds
    and gives each element the (converted) value of the element with the same
    index at the time of writing.  Neither the layouts of the two views nor
    whether they are sub-views or transposed matters, reading changes
    nothing but the elements of the view, and writing changes no memory. *)
Theorem C80_round_trip {V} (fresh : applied -> mem V) convert writable file items name o o' M d g :
  allocates fresh -> writable file = true -> NoDup (map fst items) -> Forall (fun p => good_view (snd p) M) items ->
  In (name, o) items -> sizes (o_view o') = sizes (o_view o) -> convert (o_type o) (o_type o') = Some g ->
  exists n, forall fuel, (n <= fuel)%nat ->
  exists d1, file_scope fresh fuel convert writable file Write (map (fun p => Put (fst p) (snd p)) items) (d, M) = Some (Done, (d1, M)) /\
    forall other s2, Forall (keeps (V := V) file) other -> program fresh fuel convert writable other (d1, M) = Some s2 ->
    good_view o' (snd s2) ->
    exists n', forall fuel', (n' <= fuel')%nat -> exists M3,
      hdf5_read fresh fuel' convert writable file name o' s2 = Some (Done, (fst s2, M3)) /\
      (forall i, in_range (sizes (o_view o)) i -> element o' M3 i = option_map g (element o M i)) /\
      only_elements o' (snd s2) M3.
Proof. intros F W N G I S C. exact (write_then_read fresh F convert writable file items name o o' M d W N G I S g C). Qed.

(** What a file contains after that: exactly the names written, each with
    the shape and the value type of its view; other files are as before. *)
Theorem C80_file_contents {V} (fresh : applied -> mem V) convert writable file items M d :
  allocates fresh -> writable file = true -> NoDup (map fst items) -> Forall (fun p => good_view (snd p) M) items ->
  exists n, forall fuel, (n <= fuel)%nat ->
  exists f, file_scope fresh fuel convert writable file Write (map (fun p => Put (fst p) (snd p)) items) (d, M) =
      Some (Done, (fun x => if String.eqb x file then Some (Datasets f) else d x, M)) /\
    (forall name, ~ In name (map fst items) -> f name = None) /\
    forall name o, In (name, o) items -> exists ds, f name = Some ds /\
      query_dimensionality ds = length (sizes (o_view o)) /\
      (forall D, query_extent ds D = if Nat.eqb D (length (sizes (o_view o))) then Some (sizes (o_view o)) else None) /\
      forall t, has_value_type ds t = true <-> t = o_type o.
Proof. intros F. exact (write_queries fresh F convert writable file items M d). Qed.

(** Reading from a file that is missing or is not an HDF5 file, a name that
    it does not have, or a dataset of another dimensionality or shape throws,
    and changes neither the disk nor the memory. *)
Theorem C80_refusals {V} (fresh : applied -> mem V) convert writable file name o d M fuel :
  (d file = None \/ d file = Some Foreign \/ exists f, d file = Some (Datasets f) /\
     (f name = None \/ exists ds, f name = Some ds /\ d_dims ds <> sizes (o_view o))) ->
  hdf5_read fresh fuel convert writable file name o (d, M) = Some (Threw, (d, M)).
Proof. exact (read_refused fresh convert writable file name o d M fuel). Qed.

(** A file opened for reading is not changed, and no other file is. *)
Theorem C80_reading_keeps_disk {V} (fresh : applied -> mem V) convert writable fuel file ops d M r d' M' :
  file_scope fresh fuel convert writable file Read ops (d, M) = Some (r, (d', M')) -> d' = d.
Proof. exact (read_scope_disk fresh convert writable fuel file ops d M r d' M'). Qed.

(** Limitation: the short-hand function write() empties the file first, so
    two of them leave only the second dataset: the first write reported
    success and its data are gone. *)
Theorem C80_second_write_refuted {V} (fresh : applied -> mem V) convert writable file n1 n2 o1 o2 o M d :
  allocates fresh -> writable file = true -> n1 <> n2 -> good_view o1 M -> good_view o2 M ->
  exists n, forall fuel, (n <= fuel)%nat -> exists d1 d2,
    hdf5_write fresh fuel convert writable file n1 o1 (d, M) = Some (Done, (d1, M)) /\
    hdf5_write fresh fuel convert writable file n2 o2 (d1, M) = Some (Done, (d2, M)) /\
    hdf5_read fresh fuel convert writable file n1 o (d2, M) = Some (Threw, (d2, M)).
Proof. intros F. exact (second_write fresh F convert writable file n1 n2 o1 o2 o M d). Qed.

(** Defect: a second dataset of the same name in one file is lost without
    an exception: the file is as if it had not been written. *)
Theorem C80_same_name_refuted {V} (fresh : applied -> mem V) convert writable file name o1 o2 M d :
  allocates fresh -> writable file = true -> good_view o1 M -> good_view o2 M ->
  exists n, forall fuel, (n <= fuel)%nat -> exists s,
    file_scope fresh fuel convert writable file Write [Put name o1; Put name o2] (d, M) = Some (Done, s) /\
    file_scope fresh fuel convert writable file Write [Put name o1] (d, M) = Some (Done, s).
Proof. intros F. exact (same_name fresh F convert writable file name o1 o2 M d). Qed.

(** Defect: writing to a file opened for reading reports success and does
    nothing. *)
Theorem C80_write_to_reader_refuted {V} (fresh : applied -> mem V) convert writable file name o f M d :
  allocates fresh -> d file = Some (Datasets f) -> good_view o M ->
  exists n, forall fuel, (n <= fuel)%nat ->
    file_scope fresh fuel convert writable file Read [Put name o] (d, M) = Some (Done, (d, M)).
Proof. intros F. exact (put_in_reader fresh F convert writable file name o f M d). Qed.

(** Examples: a 2x3 matrix stored by rows; a transposed matrix stored by
    columns, which is accessed directly; the same stored by rows, which is
    copied; a column of a matrix. *)
Definition real_or_complex (a b : vtype) : option (Z -> Z) :=
  match a, b with
  | (TCFloat | TCDouble), (TCFloat | TCDouble) => Some (fun x => x)
  | (TFloat | TDouble | TInt), (TFloat | TDouble | TInt) => Some (fun x => x)
  | _, _ => None
  end.
Definition ex_fresh (l : applied) : mem Z := fun a => if (0 <=? a) && (a <? total_size l) then Some (-7) else None.
Definition ex_rows : vobj := {| o_mem := 0; o_type := TInt; o_order := [0; 1]%nat; o_packing := P_dense;
  o_view := Root [2; 3] (A2row 2 3); o_copy := false; o_base := 0; o_elem := 4 |}.
Definition ex_trans : vobj := {| o_mem := 1; o_type := TDouble; o_order := [0; 1]%nat; o_packing := P_dense;
  o_view := Transposed (Root [3; 2] (A2row 3 2)); o_copy := false; o_base := 0; o_elem := 8 |}.
Definition ex_vec : vobj := {| o_mem := 2; o_type := TCFloat; o_order := [0%nat]; o_packing := P_dense;
  o_view := Root [2] (A1 2 1); o_copy := false; o_base := 0; o_elem := 8 |}.
Definition ex_mems : nat -> mem Z := fun b a => if (0 <=? a) && (a <? 6) then Some (100 * Z.of_nat b + a) else None.

Ltac fitsmall := intros d Hd; cbn [length] in Hd; destruct d as [|[|d]]; [reflexivity|try reflexivity; lia|lia].
Ltac possmall := repeat first [apply Forall_nil | apply Forall_cons; [split; [vm_compute; discriminate|reflexivity]|]].
Lemma ex_fresh_ok : allocates ex_fresh.
Proof. intros l a Ha. unfold ex_fresh. rewrite (proj2 (Z.leb_le _ _)), (proj2 (Z.ltb_lt _ _)) by lia. eexists; reflexivity. Qed.
Lemma ex_alloc n b : n <= 6 -> allocated (ex_mems b) n.
Proof. intros Hn a Ha. unfold ex_mems. rewrite (proj2 (Z.leb_le _ _)), (proj2 (Z.ltb_lt _ _)) by lia. eexists; reflexivity. Qed.
Lemma ex_rows_good : good_view ex_rows ex_mems.
Proof.
  repeat split.
  - cbn. possmall.
  - left. exists [0; 1]%nat, P_dense. split; [reflexivity|fitsmall].
  - vm_compute. repeat constructor.
  - possmall.
  - apply ex_alloc. vm_compute. discriminate.
Qed.
Lemma ex_trans_good : good_view ex_trans ex_mems.
Proof.
  repeat split.
  - cbn. possmall.
  - left. exists [0; 1]%nat, P_dense. split; [reflexivity|fitsmall].
  - vm_compute. repeat constructor.
  - possmall.
  - apply ex_alloc. vm_compute. discriminate.
Qed.
Lemma ex_vec_good : good_view ex_vec ex_mems.
Proof.
  repeat split.
  - cbn. possmall.
  - left. exists [0%nat], P_dense. split; [reflexivity|]. intros d Hd. cbn [length] in Hd. destruct d; [reflexivity|lia].
  - vm_compute. repeat constructor.
  - possmall.
  - apply ex_alloc. vm_compute. discriminate.
Qed.

(** Two views are written; the first is read back into the second. *)
Example C80_round_trip_example :
  NoDup (map fst [("a", ex_rows); ("b", ex_trans)]) /\ Forall (fun p => good_view (snd p) ex_mems) [("a", ex_rows); ("b", ex_trans)] /\
  allocates ex_fresh /\ sizes (o_view ex_trans) = sizes (o_view ex_rows) /\
  exists s M3, program ex_fresh 20 real_or_complex (fun _ => true)
      [InFile "f" Write [Put "a" ex_rows; Put "b" ex_trans]; InFile "g" Write [Put "a" ex_vec]] (fun _ => None, ex_mems) = Some s /\
    hdf5_read ex_fresh 20 real_or_complex (fun _ => true) "f" "a" ex_trans s = Some (Done, (fst s, M3)) /\
    map (element ex_trans M3) [[0; 0]; [0; 1]; [0; 2]; [1; 0]; [1; 1]; [1; 2]] = [Some 0; Some 1; Some 2; Some 3; Some 4; Some 5] /\
    map (M3 1%nat) [0; 1; 2; 3; 4; 5] = [Some 0; Some 3; Some 1; Some 4; Some 2; Some 5].
Proof.
  split; [repeat constructor; cbn; intuition discriminate|]. split; [apply Forall_cons; [exact ex_rows_good|apply Forall_cons; [exact ex_trans_good|apply Forall_nil]]|].
  split; [exact ex_fresh_ok|]. split; [reflexivity|].
  eexists _, _. split; [reflexivity|]. split; [reflexivity|]. split; reflexivity.
Qed.

(** Defect: reading a dataset whose value type cannot be converted (real
    numbers into a complex view or the other way round) reports success.  The
    view keeps its old content if it is accessed directly, and is filled with
    uninitialised memory if it is accessed through a copy; the dataset's
    values play no part in it. *)
Theorem C80_incompatible_type_refuted : forall vals, exists d,
  d "f" = Some (Datasets (fun x => if String.eqb x "v" then Some {| d_type := TInt; d_dims := [2]; d_vals := vals |}
                                   else if String.eqb x "m" then Some {| d_type := TCDouble; d_dims := [2; 3]; d_vals := vals |} else None)) /\
  good_view ex_vec ex_mems /\ good_view ex_trans ex_mems /\
  (exists M, hdf5_read ex_fresh 20 real_or_complex (fun _ => true) "f" "v" ex_vec (d, ex_mems) = Some (Done, (d, M)) /\
    forall i, in_range [2] i -> element ex_vec M i = element ex_vec ex_mems i) /\
  (exists M, hdf5_read ex_fresh 20 real_or_complex (fun _ => true) "f" "m" ex_trans (d, ex_mems) = Some (Done, (d, M)) /\
    forall i, in_range [2; 3] i -> element ex_trans M i = Some (-7)).
Proof.
  intros vals. eexists (fun _ => Some _). split; [reflexivity|]. split; [exact ex_vec_good|]. split; [exact ex_trans_good|]. split.
  - eexists. split; [reflexivity|]. intros i R. inr1 R x. rng R.
    assert (x = 0 \/ x = 1) as [-> | ->] by lia; reflexivity.
  - eexists. split; [reflexivity|]. intros i R. inr2 R x y. rng R.
    assert (x = 0 \/ x = 1) as [-> | ->] by lia; assert (y = 0 \/ y = 1 \/ y = 2) as [-> |[-> | ->]] by lia; reflexivity.
Qed.

(** PNG: row r of the file holds the bytes of the elements (r,0), (r,1), ...
    in that order, whatever the layout of the matrix. *)
Theorem C80_png_rows {V} (fresh : applied -> mem V) bytes i o M :
  allocates fresh -> good_view o M -> storable i -> pixels bytes i o -> sizes (o_view o) = [i_height i; i_width i] ->
  exists n, forall fuel, (n <= fuel)%nat -> exists g, encode fresh fuel bytes i o M = Some g /\ g_info g = i /\ wellformed g /\
    forall r, 0 <= r < i_height i -> exists xs, nth_error (g_rows g) (Z.to_nat r) = Some (concat (map bytes xs)) /\
      length xs = Z.to_nat (i_width i) /\ forall c, 0 <= c < i_width i -> nth_error xs (Z.to_nat c) = element o M [r; c].
Proof. intros F. exact (png_rows fresh F bytes i o M). Qed.

(** An image that is written and read back has the same pixels, if it is
    square.  Missing: images that are not square, for which it is false (see
    below). *)
Theorem C80_png_round_trip_partial {V} (fresh : applied -> mem V) bytes unbytes i o M o' M' :
  allocates fresh -> good_view o M -> storable i -> pixels bytes i o -> sizes (o_view o) = [i_height i; i_width i] ->
  i_width i = i_height i -> (forall x, unbytes (bytes x) = x) ->
  good_view o' M' -> o_elem o' = o_elem o -> sizes (o_view o') = sizes (o_view o) ->
  exists n, forall fuel, (n <= fuel)%nat -> exists g M2, encode fresh fuel bytes i o M = Some g /\
    decode fresh fuel unbytes g o' M' = Some M2 /\
    (forall r c, 0 <= r < i_height i -> 0 <= c < i_width i -> element o' M2 [r; c] = element o M [r; c]) /\
    only_elements o' M' M2.
Proof. intros F. exact (png_round_trip fresh F bytes unbytes i o M o' M'). Qed.

(** Defect: the decoder takes the height for the width.  An image that is
    not square cannot be read into a matrix of its shape: the check fails. *)
Theorem C80_png_rectangular_refuted {V} (fresh : applied -> mem V) unbytes fuel g o M :
  i_width (g_info g) <> i_height (g_info g) -> sizes (o_view o) = [i_height (g_info g); i_width (g_info g)] ->
  decode fresh fuel unbytes g o M = None.
Proof. exact (rect_refused fresh unbytes fuel g o M). Qed.

(** Defect: nor into the height x height matrix that the check asks for: if
    the image is wider than high, libpng writes past its end. *)
Theorem C80_png_wide_refuted {V} (fresh : applied -> mem V) unbytes fuel g o M :
  wellformed g -> storable (g_info g) -> i_height (g_info g) < i_width (g_info g) ->
  8 * o_elem o = i_depth (g_info g) * samples (i_color (g_info g)) ->
  sizes (o_view o) = [i_height (g_info g); i_height (g_info g)] ->
  decode fresh fuel unbytes g o M = None.
Proof. exact (wide_overrun fresh unbytes fuel g o M). Qed.

(** Limitation: images with 1, 2 or 4 bits per sample can be neither written
    nor read. *)
Theorem C80_png_low_depth_refuted {V} (fresh : applied -> mem V) bytes unbytes fuel i o M g :
  In (i_depth i) [1; 2; 4] -> i_color i = Gray \/ i_color i = Palette -> 0 < o_elem o -> g_info g = i ->
  encode fresh fuel bytes i o M = None /\ decode fresh fuel unbytes g o M = None.
Proof. exact (low_depth fresh bytes unbytes fuel i o M g). Qed.

(** Defect: samples of 16 bits are handed over in the machine's byte order,
    while a PNG file has the high byte first: on a little-endian machine the
    sample 1 is stored as 256. *)
Definition little16 (x : Z) : list Z := [x mod 256; x / 256 mod 256].
Definition ex_pixels : vobj := {| o_mem := 0; o_type := TInt; o_order := [0; 1]%nat; o_packing := P_dense;
  o_view := Root [2; 2] (A2row 2 2); o_copy := false; o_base := 0; o_elem := 2 |}.
Definition ex_info : info := {| i_width := 2; i_height := 2; i_depth := 16; i_color := Gray |}.
Lemma ex_pixels_good : good_view ex_pixels ex_mems.
Proof.
  repeat split.
  - cbn. possmall.
  - left. exists [0; 1]%nat, P_dense. split; [reflexivity|fitsmall].
  - vm_compute. repeat constructor.
  - possmall.
  - apply ex_alloc. vm_compute. discriminate.
Qed.
Theorem C80_png_byte_order_refuted : exists g hi lo rest,
  good_view ex_pixels ex_mems /\ storable ex_info /\ pixels little16 ex_info ex_pixels /\
  encode ex_fresh 20 little16 ex_info ex_pixels ex_mems = Some g /\
  element ex_pixels ex_mems [0; 1] = Some 1 /\ nth_error (g_rows g) 0 = Some (0 :: 0 :: hi :: lo :: rest) /\ 256 * hi + lo = 256.
Proof.
  eexists _, _, _, _. split; [exact ex_pixels_good|]. split; [cbn; repeat split; try lia; right; split; [reflexivity|discriminate]|].
  split; [split; [reflexivity|intros; reflexivity]|]. split; [reflexivity|]. split; [reflexivity|]. split; reflexivity.
Qed.

(** The square image is read back. *)
Example C80_png_example : exists g M2,
  encode ex_fresh 20 little16 ex_info ex_pixels ex_mems = Some g /\ wellformed g /\
  decode ex_fresh 20 (fun b => nth 0 b 0 + 256 * nth 1 b 0) g ex_pixels (fun _ => ex_mems 2%nat) = Some M2 /\
  map (element ex_pixels M2) [[0; 0]; [0; 1]; [1; 0]; [1; 1]] = [Some 0; Some 1; Some 2; Some 3].
Proof.
  eexists _, _. split; [reflexivity|]. split; [split; [reflexivity|repeat constructor]|]. split; reflexivity.
Qed.

Print Assumptions C80_round_trip.
Print Assumptions C80_file_contents.
Print Assumptions C80_refusals.
Print Assumptions C80_reading_keeps_disk.
Print Assumptions C80_second_write_refuted.
Print Assumptions C80_same_name_refuted.
Print Assumptions C80_write_to_reader_refuted.
Print Assumptions C80_incompatible_type_refuted.
Print Assumptions C80_png_rows.
Print Assumptions C80_png_round_trip_partial.
Print Assumptions C80_png_rectangular_refuted.
Print Assumptions C80_png_wide_refuted.
Print Assumptions C80_png_low_depth_refuted.
Print Assumptions C80_png_byte_order_refuted.
