(** Lifetimes of Python's blocks and of the NumPy arrays made of them
    (python/src/block_api.hpp, src/ovxx/python/block.hpp), and a small
    specification. *)
From Coq Require Import List Lia Bool Arith.
From Verif Require Import Base.
Import ListNotations.

(** ** The code *)

(** A Python object: how many references to it exist, and what it is.  A block
    (python/block.hpp 452-456) owns a share of its storage; an array made of a
    block [b] (block_api.hpp 230-265) has the address of that storage and, as
    its base, an object with a C++ reference to [b] (l. 219-226), not a Python
    one. *)
Inductive kind := IsBlock (storage : nat) | IsArray (storage block : nat).
Record obj := Obj { refs : nat; what : kind }.
(** [shares s] is the count of the shared_ptr to storage [s]; [freed] the
    storages deleted, in order; [pins b] the block's array_refcount_. *)
Record state := State { heap : nat -> option obj; shares : nat -> nat; freed : list nat; pins : nat -> nat }.

Definition upd {A} (f : nat -> A) (x : nat) (v : A) : nat -> A := fun y => if y =? x then v else f y.

(** What a program does.  New objects are numbered by the program.  Storage
    has the number of the block it was made for. *)
Inductive op :=
| NewBlock (o : nat)
| SubBlock (o b : nat)  (* slices, rows, columns, diagonals, real and imaginary parts *)
| MakeArray (o b : nat)
| Incref (o : nat)
| Decref (o : nat)
| Access (o : nat).     (* read or write an element of a block or an array *)

(** A block is destroyed: its share of the storage ends (std::shared_ptr). *)
Definition release (st : state) (o s : nat) : state :=
  let n := shares st s - 1 in
  State (upd (heap st) o None) (upd (shares st) s n) (if n =? 0 then freed st ++ [s] else freed st) (pins st).

Definition step (st : state) (c : op) : option state :=
  match c with
  (* block.hpp 237-255 *)
  | NewBlock o => Some (State (upd (heap st) o (Some (Obj 1 (IsBlock o)))) (upd (shares st) o 1) (freed st) (upd (pins st) o 0))
  (* block.hpp 260-279: the storage manager is shared with the parent *)
  | SubBlock o b =>
    match heap st b with
    | Some (Obj _ (IsBlock s)) =>
      Some (State (upd (heap st) o (Some (Obj 1 (IsBlock s)))) (upd (shares st) s (shares st s + 1)) (freed st) (upd (pins st) o 0))
    | _ => None
    end
  (* block_api.hpp 255-265 *)
  | MakeArray o b =>
    match heap st b with
    | Some (Obj _ (IsBlock s)) =>
      Some (State (upd (heap st) o (Some (Obj 1 (IsArray s b)))) (shares st) (freed st) (upd (pins st) b (pins st b + 1)))
    | _ => None
    end
  | Incref o =>
    match heap st o with
    | Some x => Some (State (upd (heap st) o (Some (Obj (refs x + 1) (what x)))) (shares st) (freed st) (pins st))
    | None => None
    end
  | Decref o =>
    match heap st o with
    | Some (Obj (S (S n)) w) => Some (State (upd (heap st) o (Some (Obj (S n) w))) (shares st) (freed st) (pins st))
    | Some (Obj _ (IsBlock s)) => Some (release st o s)
    (* ~array_backref (l. 224): unref_ptr() of the block *)
    | Some (Obj _ (IsArray s b)) =>
      match heap st b with
      | Some _ => Some (State (upd (heap st) o None) (shares st) (freed st) (upd (pins st) b (pins st b - 1)))
      | None => None
      end
    | None => None
    end
  (* the storage must not have been deleted *)
  | Access o =>
    match heap st o with
    | Some (Obj _ (IsBlock s)) | Some (Obj _ (IsArray s _)) => if existsb (Nat.eqb s) (freed st) then None else Some st
    | None => None
    end
  end.

Fixpoint run (st : state) (p : list op) : option state :=
  match p with
  | [] => Some st
  | c :: p' => match step st c with Some st' => run st' p' | None => None end
  end.

Definition start : state := State (fun _ => None) (fun _ => 0) [] (fun _ => 0).

(** * Specification: histories, the last operation first *)

(** How many references a program has to an object. *)
Fixpoint references (p : list op) (o : nat) : nat :=
  match p with
  | [] => 0
  | c :: p' =>
    match c with
    | NewBlock x | SubBlock x _ | MakeArray x _ => if x =? o then 1 else references p' o
    | Incref x => if x =? o then S (references p' o) else references p' o
    | Decref x => if x =? o then pred (references p' o) else references p' o
    | Access _ => references p' o
    end
  end.
(** The block for which the storage of a block or array was made. *)
Fixpoint origin (p : list op) (o : nat) : nat :=
  match p with
  | [] => o
  | c :: p' =>
    match c with
    | SubBlock x b | MakeArray x b => if x =? o then origin p' b else origin p' o
    | _ => origin p' o
    end
  end.
(** The blocks, and the array made of a block. *)
Fixpoint is_block (p : list op) (o : nat) : bool :=
  match p with
  | [] => false
  | NewBlock x :: p' | SubBlock x _ :: p' => if x =? o then true else is_block p' o
  | _ :: p' => is_block p' o
  end.
Fixpoint array_of (p : list op) (o b : nat) : bool :=
  match p with
  | [] => false
  | MakeArray x y :: p' => if x =? o then y =? b else array_of p' o b
  | _ :: p' => array_of p' o b
  end.
Fixpoint made (p : list op) (o : nat) : bool :=
  match p with
  | [] => false
  | NewBlock x :: p' | SubBlock x _ :: p' | MakeArray x _ :: p' => if x =? o then true else made p' o
  | _ :: p' => made p' o
  end.

(** Programs use objects they have references to, and number new ones anew. *)
Fixpoint well_formed (p : list op) : Prop :=
  match p with
  | [] => True
  | c :: p' => well_formed p' /\
    match c with
    | NewBlock o => made p' o = false
    | SubBlock o b | MakeArray o b => made p' o = false /\ is_block p' b = true /\ 0 < references p' b
    | Incref o | Decref o | Access o => 0 < references p' o
    end
  end.

(** No block is destroyed while there is an array made of it. *)
Fixpoint arrays_first (p : list op) : Prop :=
  match p with
  | [] => True
  | c :: p' => arrays_first p' /\
    match c with
    | Decref b => references p' b = 1 -> forall a, array_of p' a b = true -> references p' a = 0
    | _ => True
    end
  end.
