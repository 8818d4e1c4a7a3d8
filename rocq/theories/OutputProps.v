(** Theorems about the text output of views and domains. *)
From Coq Require Import String.
From Coq Require Import ZArith List Lia Bool Arith Ascii.
From Verif Require Import Base Output OutputProofs.
Import ListNotations.

(** ** Vectors and matrices *)

(** Vectors with the same text have the same size and elements, if the text
    of an element tells it and has no line break. *)
Theorem C85_vector_can_be_read_back : forall A (show : A -> text) v w out,
  legible show [newline] ->
  put_vector show out v = put_vector show out w -> same_vec v w.
Proof. exact vector_inj. Qed.
Print Assumptions C85_vector_can_be_read_back.

(** Line [i] of the text is the index, a colon and the element. *)
Theorem C85_vector_format : forall A (show : A -> text) v, legible show [newline] ->
  exists ls, has_lines (put_vector show [] v) ls /\ length ls = v_size v /\
  forall i, i < v_size v ->
    nth_error ls i = Some (decimal (Z.of_nat i) ++ ":"%char :: " "%char :: show (v_get v i)).
Proof. exact vector_format. Qed.
Print Assumptions C85_vector_format.

(** Matrices with the same text have the same size and elements; a matrix
    without rows has no text, so it does not tell its number of columns. *)
Theorem C85_matrix_can_be_read_back : forall A (show : A -> text) v w out,
  legible show [newline; " "%char] ->
  put_matrix show out v = put_matrix show out w ->
  m_rows v = m_rows w /\ (0 < m_rows v -> same_mat v w).
Proof. exact matrix_inj. Qed.
Print Assumptions C85_matrix_can_be_read_back.

Theorem C85_matrix_format : forall A (show : A -> text) m, legible show [newline] ->
  exists ls, has_lines (put_matrix show [] m) ls /\ length ls = m_rows m /\
  forall r, r < m_rows m -> nth_error ls r = Some (decimal (Z.of_nat r) ++ ":"%char :: " "%char ::
     concat (map (fun c => " "%char :: " "%char :: show (m_get m r c)) (seq 0 (m_cols m)))).
Proof. exact matrix_format. Qed.
Print Assumptions C85_matrix_format.

(** A text has at most one division into lines: the format theorems say
    what the text is. *)
Theorem C85_lines_are_unique : forall s l1 l2, has_lines s l1 -> has_lines s l2 -> l1 = l2.
Proof. exact lines_fun. Qed.
Print Assumptions C85_lines_are_unique.

(** What the stream held before is kept. *)
Theorem C85_output_is_appended : forall A (show : A -> text) out,
  (forall v, put_vector show out v = out ++ put_vector show [] v) /\
  (forall m, put_matrix show out m = out ++ put_matrix show [] m) /\
  (forall t, put_tensor show out t = out ++ put_tensor show [] t).
Proof.
  intros A show out. split; [exact (vector_appends A show out)|].
  split; [exact (matrix_appends A show out)|exact (tensor_appends A show out)].
Qed.
Print Assumptions C85_output_is_appended.

(** Integers and complex integers are such elements. *)
Theorem C85_integers : legible decimal [newline; " "%char] /\
  legible (fun x : Z * Z => "("%char :: decimal (fst x) ++ ","%char :: decimal (snd x) ++ [")"%char]) [newline; " "%char].
Proof. split; [exact decimal_legible2|exact complex_legible]. Qed.
Print Assumptions C85_integers.

Example vector_text_example :
  put_vector decimal [] (Vec 3 (fun i => nth i [7; -12; 0]%Z 0%Z)) =
  list_ascii_of_string ("0: 7" ++ String newline ("1: -12" ++ String newline ("2: 0" ++ String newline "")))%string.
Proof. vm_compute. reflexivity. Qed.

Example matrix_text_example :
  put_matrix decimal [] (Mat 2 2 (fun r c => Z.of_nat (10 * r + c))) =
  list_ascii_of_string ("0:   0  1" ++ String newline ("1:   10  11" ++ String newline ""))%string.
Proof. vm_compute. reflexivity. Qed.

(** ** Tensors *)

(** Elements that all have equally long text, such as bool, can be read
    back from the text of a tensor. *)
Theorem C85_tensor_of_fixed_width : forall A (show : A -> text) k v w out,
  legible show [newline] -> (forall x, length (show x) = k) -> 0 < k ->
  0 < t_size0 v -> 0 < t_size1 v ->
  put_tensor show out v = put_tensor show out w -> same_ten v w.
Proof. exact tensor_fixed. Qed.
Print Assumptions C85_tensor_of_fixed_width.

Example bool_tensor :
  let show (b : bool) := [if b then "1"%char else "0"%char] in
  legible show [newline] /\ (forall x, length (show x) = 1) /\
  put_tensor show [] (Ten 1 1 2 (fun _ _ c => c =? 0)) =
  list_ascii_of_string ("plane 0:" ++ String newline ("0: 10" ++ String newline (String newline "")))%string.
Proof.
  split; [|split; [reflexivity|vm_compute; reflexivity]].
  split; [intros [|] [|] E; congruence|].
  intros [|] c [<- | []] [H | []]; discriminate.
Qed.

(** The planes of a tensor: a heading, a line for each row, an empty line. *)
Theorem C85_tensor_format : forall A (show : A -> text) t, legible show [newline] -> exists planes : list (list text),
  has_lines (put_tensor show [] t) (concat planes) /\ length planes = t_size0 t /\
  forall z, z < t_size0 t -> exists rows,
    nth_error planes z = Some ((list_ascii_of_string "plane " ++ decimal (Z.of_nat z) ++ [":"%char]) :: rows ++ [[]]) /\
    length rows = t_size1 t /\
    forall r, r < t_size1 t -> nth_error rows r =
      Some (decimal (Z.of_nat r) ++ ":"%char :: " "%char :: concat (map (fun c => show (t_get t z r c)) (seq 0 (t_size2 t)))).
Proof. exact tensor_format. Qed.
Print Assumptions C85_tensor_format.

(** Defect: operator<< for tensors writes the elements of a row one after
    the other without anything between them (output.hpp 113-114; vectors
    and matrices have separators): tensors with different elements, and
    tensors of different size, have the same text. *)
Theorem C85_tensor_refuted : legible decimal [newline; " "%char] /\
  exists v w : ten Z,
    t_size0 v = 1 /\ t_size1 v = 1 /\ t_size2 v = 2 /\
    put_tensor decimal [] v = put_tensor decimal [] w /\ ~ same_ten v w /\
  exists u : ten Z, t_size2 u = 3 /\ put_tensor decimal [] u = put_tensor decimal [] v.
Proof.
  split; [exact decimal_legible2|].
  exists (Ten 1 1 2 (fun _ _ c => nth c [1; 11]%Z 0%Z)), (Ten 1 1 2 (fun _ _ c => nth c [11; 1]%Z 0%Z)).
  split; [reflexivity|]. split; [reflexivity|]. split; [reflexivity|]. split; [vm_compute; reflexivity|].
  split; [intros (_ & _ & _ & H); specialize (H 0 0 0 ltac:(cbn; lia) ltac:(cbn; lia) ltac:(cbn; lia)); discriminate H|].
  exists (Ten 1 1 3 (fun _ _ _ => 1%Z)). split; [reflexivity|vm_compute; reflexivity].
Qed.
Print Assumptions C85_tensor_refuted.

(** ** Domains, indices and lengths *)

Theorem C85_domains_can_be_read_back :
  (forall out d e, put_dom1 out d = put_dom1 out e -> d = e) /\
  (forall out d0 d1 e0 e1, put_dom2 out d0 d1 = put_dom2 out e0 e1 -> d0 = e0 /\ d1 = e1) /\
  (forall out d0 d1 d2 e0 e1 e2, put_dom3 out d0 d1 d2 = put_dom3 out e0 e1 e2 -> d0 = e0 /\ d1 = e1 /\ d2 = e2).
Proof. split; [exact dom1_inj|]. split; [exact dom2_inj|exact dom3_inj]. Qed.
Print Assumptions C85_domains_can_be_read_back.

Theorem C85_indices_can_be_read_back : forall out l l', put_index out l = put_index out l' -> l = l'.
Proof. exact index_inj. Qed.
Print Assumptions C85_indices_can_be_read_back.

Theorem C85_domain_format : forall d e f,
  let one d := "("%char :: decimal (d_first d) ++ ","%char :: " "%char :: decimal (d_stride d)
                 ++ ","%char :: " "%char :: decimal (d_length d) ++ [")"%char] in
  put_dom1 [] d = one d /\
  put_dom2 [] d e = "("%char :: one d ++ ","%char :: " "%char :: one e ++ [")"%char] /\
  put_dom3 [] d e f = "("%char :: one d ++ ","%char :: " "%char :: one e ++ ","%char :: " "%char :: one f ++ [")"%char].
Proof. exact domain_format. Qed.
Print Assumptions C85_domain_format.

Theorem C85_index_format : forall x l, put_index [] (x :: l) =
  "("%char :: decimal x ++ concat (map (fun y => ","%char :: " "%char :: decimal y) l) ++ [")"%char].
Proof. exact index_format. Qed.
Print Assumptions C85_index_format.

Example domain_text :
  put_dom2 [] (Dom1 0 2 5) (Dom1 9 (-3) 4) = list_ascii_of_string "((0, 2, 5), (9, -3, 4))" /\
  put_index [] [3; 0; 14]%Z = list_ascii_of_string "(3, 0, 14)".
Proof. split; vm_compute; reflexivity. Qed.
