(** Model of pointers whose storage format is known at run time only
    (src/ovxx/pointer.hpp), with the casts of src/ovxx/storage/traits.hpp
    98-135.  Addresses count real numbers (T): a complex number in an array
    occupies two consecutive ones.  Address 0 is the null pointer. *)
From Coq Require Import ZArith List Bool.
Import ListNotations.
Local Open Scope Z_scope.

(** The three kinds of pointers to complex data: complex<T>*, T* and
    std::pair<T*, T*>. *)
Inductive native := Array (a : Z) | Inter (a : Z) | Split (re im : Z).
(** vsip/layout.hpp 65-76. *)
Inductive format := array | interleaved_complex | split_complex | any_storage_format.
(** pointer.hpp 89-96 and 159-166: the format and the union; its second word
    is used by [s.second] only.  [None]: never written. *)
Record rtp := Rtp { fmt : format; word0 : option Z; word1 : option Z }.
(** What asking for a pointer gives: the pointer, a failed precondition, or a
    pointer made of a word that was never written. *)
Inductive outcome := Got (p : native) | Refused | Garbage.

(** pointer.hpp 43-46 (pointer) and 105-108 (const_pointer). *)
Definition make (p : native) : rtp :=
  match p with
  | Array a => Rtp array (Some a) None
  | Inter a => Rtp interleaved_complex (Some a) None
  | Split r i => Rtp split_complex (Some r) (Some i)
  end.
(** pointer.hpp 42, 104: the default constructor; 47-52, 128-133: a null
    pointer of a given format. *)
Definition make_default : rtp := Rtp any_storage_format (Some 0) None.
Definition make_null (f : format) : rtp := Rtp f (Some 0) None.

(** Reading the words of the union as a pointer. *)
Definition got1 (k : Z -> native) (w : option Z) : outcome := match w with Some a => Got (k a) | None => Garbage end.
Definition got2 (w w' : option Z) : outcome := match w, w' with Some a, Some b => Got (Split a b) | _, _ => Garbage end.
Definition is_array_like (f : format) : bool := match f with array | interleaved_complex => true | _ => false end.
(** pointer.hpp 65-70 and 73-87 with storage/traits.hpp 103-135: pointer::as. *)
Definition as_mut (f : format) (p : rtp) : outcome :=
  match f with
  | array => if is_array_like (fmt p) then got1 Array (word0 p) else Refused
  | interleaved_complex => if is_array_like (fmt p) then got1 Inter (word0 p) else Refused
  | split_complex => match fmt p with split_complex => got2 (word0 p) (word1 p) | _ => Refused end
  | any_storage_format => Refused
  end.
(** pointer.hpp 147-157: const_pointer::as, which checks nothing. *)
Definition as_const (f : format) (p : rtp) : outcome :=
  match f with
  | array => got1 Array (word0 p)
  | interleaved_complex => got1 Inter (word0 p)
  | split_complex => got2 (word0 p) (word1 p)
  | any_storage_format => Refused
  end.
(** pointer.hpp 54-62 and 135-143: operator bool ([word0] is the first word of
    each member of the union). *)
Definition nonnull (p : rtp) : bool := match word0 p with Some a => negb (a =? 0) | None => true end.

(** pointer.hpp 109-127: a const_pointer from a pointer.  Words that were never
    written are copied as such. *)
Definition to_const (p : rtp) : rtp :=
  match fmt p with
  | array | interleaved_complex => Rtp (fmt p) (word0 p) None
  | split_complex => Rtp (fmt p) (word0 p) (word1 p)
  | any_storage_format => Rtp (fmt p) (Some 0) None
  end.
(** pointer.hpp 191-214: const_cast_ of a const_pointer. *)
Definition to_mut (p : rtp) : rtp :=
  match fmt p with
  | array => Rtp array (word0 p) None
  | interleaved_complex => Rtp interleaved_complex (word0 p) None
  | split_complex => Rtp split_complex (word0 p) (word1 p)
  | any_storage_format => make_default
  end.

(** A variable of one of the two classes, and what a program does with it:
    conversions to const (pointer.hpp 109; the copy constructor for a
    const_pointer) and const_cast_ (190-191). *)
Inductive var := Mut (p : rtp) | Const (p : rtp).
Inductive conv := ToConst | ToMut.
Definition convert (v : var) (c : conv) : var :=
  match c, v with
  | ToConst, Mut p => Const (to_const p)
  | ToConst, Const p => Const p
  | ToMut, Mut p => Mut p
  | ToMut, Const p => Mut (to_mut p)
  end.
Definition converts (cs : list conv) (v : var) : var := fold_left convert cs v.
(** var.as<f>() and if (var). *)
Definition as_ (f : format) (v : var) : outcome := match v with Mut p => as_mut f p | Const p => as_const f p end.
Definition test (v : var) : bool := match v with Mut p | Const p => nonnull p end.
(** pointer.hpp 227-258: pointer_cast between complex<T>* and T*. *)
Definition pointer_cast_complex (p : native) : option native :=
  match p with Array a | Inter a => Some (Array a) | Split _ _ => None end.
Definition pointer_cast_real (p : native) : option native :=
  match p with Array a | Inter a => Some (Inter a) | Split _ _ => None end.
(** pointer.hpp 270-284: is_aligned_to; [s] is sizeof(T). *)
Definition is_aligned_to (s align : Z) (p : native) : bool :=
  match p with
  | Array a | Inter a => (a * s) mod align =? 0
  | Split r i => ((r * s) mod align =? 0) && ((i * s) mod align =? 0)
  end.

(** ** Specification *)
(** Where the real and the imaginary part of element k are. *)
Definition real_at (p : native) (k : Z) : Z := match p with Array a | Inter a => a + 2 * k | Split r _ => r + k end.
Definition imag_at (p : native) (k : Z) : Z := match p with Array a | Inter a => a + 2 * k + 1 | Split _ i => i + k end.
Definition same_elements (p q : native) : Prop := forall k, real_at p k = real_at q k /\ imag_at p k = imag_at q k.
(** The kind of a pointer, and whether data of the kind of [p] can be used
    through a pointer of format [f]. *)
Definition kind (p : native) : format := match p with Array _ => array | Inter _ => interleaved_complex | Split _ _ => split_complex end.
Definition fits (f : format) (p : native) : Prop :=
  match p with Array _ | Inter _ => f = array \/ f = interleaved_complex | Split _ _ => f = split_complex end.
Definition null (p : native) : Prop := match p with Array a | Inter a => a = 0 | Split r _ => r = 0 end.
