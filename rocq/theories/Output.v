(** Text output of domains, indices, lengths and views
    (src/ovxx/output.hpp), and a small specification. *)
From Coq Require Import String.
From Coq Require Import ZArith List Lia Bool Arith Ascii.
From Coq Require Import DecimalString.
From Verif Require Import Base.
Import ListNotations.

(** Text is a sequence of characters.  An output stream is what has been
    written to it so far.  The stream is taken to be in the state a program
    finds it in: decimal, no field width, no fill, not failed. *)
Definition text := list ascii.
Definition str (s : string) : text := list_ascii_of_string s.
Definition newline : ascii := ascii_of_nat 10.

(** [out << n] for a built-in integer (standard library: decimal digits, a
    minus sign if negative). *)
Definition put_int (out : text) (n : Z) : text :=
  out ++ str (NilZero.string_of_int (Z.to_int n)).

(** [out << "..."], [out << 'c'], [out << std::endl] (the flush is not
    modelled). *)
Definition put_str (out : text) (s : string) : text := out ++ str s.
Definition put_nl (out : text) : text := out ++ [newline].

(** A one-dimensional domain: first, stride, length (vsip/domain.hpp). *)
Record dom1 := Dom1 { d_first : Z; d_stride : Z; d_length : Z }.

(** operator<<(ostream, Domain<1>) (output.hpp 23-32). *)
Definition put_dom1 (out : text) (d : dom1) : text :=
  let out := put_str out "(" in
  let out := put_str (put_int out (d_first d)) ", " in
  let out := put_str (put_int out (d_stride d)) ", " in
  put_str (put_int out (d_length d)) ")".

(** operator<<(ostream, Domain<2>) and Domain<3> (output.hpp 34-46). *)
Definition put_dom2 (out : text) (d0 d1 : dom1) : text :=
  let out := put_dom1 (put_str out "(") d0 in
  put_str (put_dom1 (put_str out ", ") d1) ")".
Definition put_dom3 (out : text) (d0 d1 d2 : dom1) : text :=
  let out := put_dom1 (put_str out "(") d0 in
  let out := put_dom1 (put_str out ", ") d1 in
  put_str (put_dom1 (put_str out ", ") d2) ")".

(** operator<<(ostream, Index<D>) and Length<D> (output.hpp 48-74): the two
    have the same body. *)
Fixpoint put_entries (out : text) (d : nat) (l : list Z) : text :=
  match l with
  | [] => out
  | x :: l' => put_entries (put_int (if 0 <? d then put_str out ", " else out) x) (d + 1) l'
  end.
Definition put_index (out : text) (l : list Z) : text :=
  put_str (put_entries (put_str out "(") 0 l) ")".

Section Views.

(** [out << x] for an element writes [show x]. *)
Variable A : Type.
Variable show : A -> text.
Definition put_elt (out : text) (x : A) : text := out ++ show x.

(** [for (i = b; i != b + n; ++i)]. *)
Fixpoint for_ (b n : nat) (f : text -> nat -> text) (out : text) : text :=
  match n with
  | 0 => out
  | S n' => for_ (b + 1) n' f (f out b)
  end.

(** Views: sizes and get (vsip/{vector,matrix,tensor}.hpp). *)
Record vec := Vec { v_size : nat; v_get : nat -> A }.
Record mat := Mat { m_rows : nat; m_cols : nat; m_get : nat -> nat -> A }.
Record ten := Ten { t_size0 : nat; t_size1 : nat; t_size2 : nat; t_get : nat -> nat -> nat -> A }.

(** operator<<(ostream, const_Vector) (output.hpp 76-84). *)
Definition put_vector (out : text) (v : vec) : text :=
  for_ 0 (v_size v) (fun out i =>
    put_str (put_elt (put_str (put_int out (Z.of_nat i)) ": ") (v_get v i)) (String newline "")) out.

(** operator<<(ostream, const_Matrix) (output.hpp 86-99). *)
Definition put_matrix (out : text) (m : mat) : text :=
  for_ 0 (m_rows m) (fun out r =>
    let out := put_str (put_int out (Z.of_nat r)) ": " in
    let out := for_ 0 (m_cols m) (fun out c => put_elt (put_str out "  ") (m_get m r c)) out in
    put_nl out) out.

(** operator<<(ostream, const_Tensor) (output.hpp 101-119): no separator
    between the elements of a row. *)
Definition put_tensor (out : text) (t : ten) : text :=
  for_ 0 (t_size0 t) (fun out z =>
    let out := put_str (put_str (put_int (put_str out "plane ") (Z.of_nat z)) ":") (String newline "") in
    let out := for_ 0 (t_size1 t) (fun out r =>
      let out := put_str (put_int out (Z.of_nat r)) ": " in
      let out := for_ 0 (t_size2 t) (fun out c => put_elt out (t_get t z r c)) out in
      put_nl out) out in
    put_nl out) out.

End Views.
Arguments Vec {A}. Arguments v_size {A}. Arguments v_get {A}.
Arguments Mat {A}. Arguments m_rows {A}. Arguments m_cols {A}. Arguments m_get {A}.
Arguments Ten {A}. Arguments t_size0 {A}. Arguments t_size1 {A}. Arguments t_size2 {A}. Arguments t_get {A}.
Arguments put_elt {A}. Arguments put_vector {A}. Arguments put_matrix {A}. Arguments put_tensor {A}.

(** * Specification *)

(** Decimal notation of an integer. *)
Definition decimal (n : Z) : text := list_ascii_of_string (NilZero.string_of_int (Z.to_int n)).

(** The element's text can be told apart from what surrounds it: different
    elements have different text, without the characters in [sep]. *)
Definition legible {A} (show : A -> text) (sep : list ascii) : Prop :=
  (forall x y, show x = show y -> x = y) /\
  (forall x c, In c sep -> ~ In c (show x)).

(** The lines of a text: every line ends with a newline. *)
Inductive has_lines : text -> list text -> Prop :=
| lines_none : has_lines [] []
| lines_one l s ls : ~ In newline l -> has_lines s ls -> has_lines (l ++ newline :: s) (l :: ls).

(** Two views with the same sizes and elements. *)
Definition same_vec {A} (v w : vec A) : Prop :=
  v_size v = v_size w /\ forall i, i < v_size v -> v_get v i = v_get w i.
Definition same_mat {A} (v w : mat A) : Prop :=
  m_rows v = m_rows w /\ m_cols v = m_cols w /\
  forall r c, r < m_rows v -> c < m_cols v -> m_get v r c = m_get w r c.
Definition same_ten {A} (v w : ten A) : Prop :=
  t_size0 v = t_size0 w /\ t_size1 v = t_size1 w /\ t_size2 v = t_size2 w /\
  forall z r c, z < t_size0 v -> r < t_size1 v -> c < t_size2 v -> t_get v z r c = t_get w z r c.
