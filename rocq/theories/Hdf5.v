(** The identifiers of the HDF5 library held by files and datasets
    (src/ovxx/io/hdf5.hpp), and a small specification.  What is stored is in
    FileIO.v. *)
From Coq Require Import ZArith List Lia Bool Arith.
From Verif Require Import Base.
Import ListNotations.
Open Scope Z_scope.

(** ** The library as documented: identifiers *)

(** Every object opened or created gets a new positive identifier, which has
    to be closed once; closing one that is not open is an error (a negative
    result, which no caller here looks at). *)
Record lib := Lib { next : Z; open : list Z; errors : nat }.
Definition h5_new (l : lib) : Z * lib := (next l, Lib (next l + 1) (next l :: open l) (errors l)).
Definition h5_close (i : Z) (l : lib) : lib :=
  if existsb (Z.eqb i) (open l) then Lib (next l) (remove Z.eq_dec i (open l)) (errors l)
  else Lib (next l) (open l) (S (errors l)).
Definition is_open (i : Z) (l : lib) : bool := existsb (Z.eqb i) (open l).
(** A call with identifier [i] that makes a new object: -1 and an error if [i]
    is not open. *)
Definition h5_get (i : Z) (l : lib) : Z * lib :=
  if is_open i l then h5_new l else (-1, Lib (next l) (open l) (S (errors l))).
(** A call with identifier [i] that makes none. *)
Definition h5_use (i : Z) (l : lib) : lib :=
  if is_open i l then l else Lib (next l) (open l) (S (errors l)).

(** ** Objects of a program *)

(** dataset (l. 173-176): impl_ is 0 until it is opened or written. *)
Record dset := Dset { impl : Z; file_ : Z }.
(** The variables of the program: files and datasets. *)
Record state := State { library : lib; files : nat -> option Z; dsets : nat -> option dset }.
Definition set {A} (f : nat -> option A) (x : nat) (v : option A) : nat -> option A :=
  fun y => if (y =? x)%nat then v else f y.

(** What a program can do with them.  The flags tell whether the library
    succeeds; [rank] is the dimensionality of the dataset on disk, [cplx]
    whether the value type is complex. *)
Inductive op :=
| OpenFile (f : nat) (ok : bool)
| CloseFile (f : nat)
| OpenDataset (x f : nat) (ok : bool)
| CreateDataset (x f : nat)
| CopyDataset (y x : nat)
| AssignDataset (y x : nat)
| Destroy (x : nat)
| Dimensionality (x : nat)
| Extent (D : nat) (x rank : nat)
| HasType (x : nat) (cplx : bool)
| Read (D : nat) (x rank : nat) (cplx : bool)
| Write (x : nat) (cplx ok : bool).

Inductive res := Ok (s : state) | Threw (s : state) | Undefined.

(** traits<T>::type() (l. 50-83): a new type for complex numbers, a constant
    of the library otherwise. *)
Definition traits_type (cplx : bool) (l : lib) : lib := if cplx then snd (h5_new l) else l.
(** query_dimensionality() (l. 99-105). *)
Definition query_dimensionality (i : Z) (l : lib) : lib :=
  let (space, l1) := h5_get i l in h5_close space (h5_use space l1).
(** query_extent<D>() (l. 106-115): the library stores [rank] extents into an
    array of D, none if the dataset is not open; then a precondition. *)
Definition query_extent (D rank : nat) (i : Z) (l : lib) : option lib :=
  let (space, l1) := h5_get i l in
  if is_open space l1 && (D <? rank)%nat then None else
  let l2 := h5_close space (h5_use space l1) in
  if is_open space l1 && (D =? rank)%nat then Some l2 else None.

Definition with_lib (s : state) (l : lib) : state := State l (files s) (dsets s).

Definition step (s : state) (o : op) : res :=
  let l := library s in
  match o with
  (* l. 182-190 *)
  | OpenFile f ok =>
    if ok then let (i, l1) := h5_new l in Ok (State l1 (set (files s) f (Some i)) (dsets s)) else Threw s
  (* l. 191 *)
  | CloseFile f =>
    match files s f with
    | Some i => Ok (State (h5_close i l) (set (files s) f None) (dsets s))
    | None => Undefined
    end
  (* l. 194-195, 163-172 *)
  | OpenDataset x f ok =>
    match files s f with
    | Some i => if ok then let (d, l1) := h5_new l in Ok (State l1 (files s) (set (dsets s) x (Some (Dset d i)))) else Threw s
    | None => Undefined
    end
  (* l. 196-197 *)
  | CreateDataset x f =>
    match files s f with
    | Some i => Ok (State l (files s) (set (dsets s) x (Some (Dset 0 i))))
    | None => Undefined
    end
  (* the implicit copy constructor and assignment *)
  | CopyDataset y x | AssignDataset y x => Ok (State l (files s) (set (dsets s) y (dsets s x)))
  (* l. 97 *)
  | Destroy x =>
    match dsets s x with
    | Some d => Ok (State (if impl d =? 0 then l else h5_close (impl d) l) (files s) (set (dsets s) x None))
    | None => Undefined
    end
  | Dimensionality x => match dsets s x with Some d => Ok (with_lib s (query_dimensionality (impl d) l)) | None => Undefined end
  | Extent D x rank =>
    match dsets s x with
    | Some d => match query_extent D rank (impl d) l with Some l1 => Ok (with_lib s l1) | None => Undefined end
    | None => Undefined
    end
  (* l. 116-122: has_value_type<T>() *)
  | HasType x cplx => match dsets s x with Some d => Ok (with_lib s (traits_type cplx (snd (h5_get (impl d) l)))) | None => Undefined end
  (* l. 123-139; the view has the extents of the dataset *)
  | Read D x rank cplx =>
    match dsets s x with
    | Some d =>
      if impl d =? 0 then Undefined else
      let l1 := query_dimensionality (impl d) l in
      if negb (D =? rank)%nat then Threw (with_lib s l1) else
      match query_extent D rank (impl d) l1 with
      | Some l2 => Ok (with_lib s (h5_use (impl d) (traits_type cplx l2)))
      | None => Undefined
      end
    | None => Undefined
    end
  (* l. 141-160: H5Dcreate gives a negative identifier if it fails (as it does
     if the file is closed) *)
  | Write x cplx ok =>
    match dsets s x with
    | Some d =>
      if negb (impl d =? 0) then Undefined else
      let l1 := traits_type cplx l in
      let (space, l2) := h5_new l1 in
      let (i, l3) := if ok then h5_new l2 else (-1, l2) in
      Ok (State (h5_use i (h5_close space l3)) (files s) (set (dsets s) x (Some (Dset i (file_ d)))))
    | None => Undefined
    end
  end.

(** A program; an exception ends an operation, not the program. *)
Fixpoint run (s : state) (p : list op) : res :=
  match p with
  | [] => Ok s
  | o :: p' => match step s o with Ok s' | Threw s' => run s' p' | Undefined => Undefined end
  end.

Definition start : state := State (Lib 1 [] 0) (fun _ => None) (fun _ => None).

(** * Specification *)

(** Which variables exist after a program: that of [files] or [datasets] if
    it was constructed last and not destroyed since. *)
Fixpoint files_alive (p : list op) (f : nat) : bool :=
  match p with
  | [] => false
  | o :: p' =>
    match o with
    | OpenFile g true => if (g =? f)%nat then true else files_alive p' f
    | CloseFile g => if (g =? f)%nat then false else files_alive p' f
    | _ => files_alive p' f
    end
  end.
Fixpoint dsets_alive (p : list op) (x : nat) : bool :=
  match p with
  | [] => false
  | o :: p' =>
    match o with
    | OpenDataset y _ true | CreateDataset y _ => if (y =? x)%nat then true else dsets_alive p' x
    | Destroy y => if (y =? x)%nat then false else dsets_alive p' x
    | _ => dsets_alive p' x
    end
  end.

(** A program that constructs before it uses, constructs no variable twice,
    and destroys what it constructed: [p] is the history, the last operation
    first. *)
Fixpoint well_scoped (p : list op) : Prop :=
  match p with
  | [] => True
  | o :: p' => well_scoped p' /\
    match o with
    | OpenFile f _ => files_alive p' f = false
    | CloseFile f => files_alive p' f = true
    | OpenDataset x f _ | CreateDataset x f => dsets_alive p' x = false /\ files_alive p' f = true
    | Destroy x | Dimensionality x | Extent _ x _ | HasType x _ | Read _ x _ _ | Write x _ _ => dsets_alive p' x = true
    | CopyDataset y x => dsets_alive p' y = false /\ dsets_alive p' x = true
    | AssignDataset y x => dsets_alive p' y = true /\ dsets_alive p' x = true
    end
  end.

(** Whether a dataset was opened or written (in the history [p], last
    operation first). *)
Fixpoint has_data (p : list op) (x : nat) : bool :=
  match p with
  | [] => false
  | o :: p' =>
    match o with
    | OpenDataset y _ true => if (y =? x)%nat then true else has_data p' x
    | Write y _ _ => if (y =? x)%nat then true else has_data p' x
    | CreateDataset y _ | Destroy y => if (y =? x)%nat then false else has_data p' x
    | _ => has_data p' x
    end
  end.

(** The programs for which everything is closed: no copies of datasets, no
    complex values, no questions for the type, extents asked for in the right
    dimensionality, creation succeeds, datasets are read if they have data and
    written if they do not. *)
Fixpoint careful (p : list op) : Prop :=
  match p with
  | [] => True
  | o :: p' => careful p' /\
    match o with
    | CopyDataset _ _ | AssignDataset _ _ | HasType _ _ => False
    | Dimensionality x => has_data p' x = true
    | Extent D x rank => D = rank /\ has_data p' x = true
    | Read _ x _ cplx => cplx = false /\ has_data p' x = true
    | Write x cplx ok => cplx = false /\ ok = true /\ has_data p' x = false
    | _ => True
    end
  end.
