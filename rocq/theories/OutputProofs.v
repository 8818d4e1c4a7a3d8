(** Lemmas about the text output of Output.v. *)
From Coq Require Import String.
From Coq Require Import ZArith List Lia Bool Arith Ascii.
From Coq Require Import DecimalString DecimalZ.
From Verif Require Import Base Output.
Import ListNotations.

(** ** Decimal notation *)
Definition digitb (c : ascii) : bool := (48 <=? nat_of_ascii c) && (nat_of_ascii c <=? 57).
Definition numb (c : ascii) : bool := digitb c || (nat_of_ascii c =? 45).

Lemma uint_chars d : forallb digitb (list_ascii_of_string (NilEmpty.string_of_uint d)) = true.
Proof. induction d; cbn [NilEmpty.string_of_uint list_ascii_of_string forallb]; try rewrite IHd; reflexivity. Qed.

Lemma nzuint_chars d : forallb digitb (list_ascii_of_string (NilZero.string_of_uint d)) = true /\
  list_ascii_of_string (NilZero.string_of_uint d) <> [].
Proof.
  destruct d; cbn [NilZero.string_of_uint]; (split; [|discriminate]);
    cbn [NilEmpty.string_of_uint list_ascii_of_string forallb]; try rewrite uint_chars; reflexivity.
Qed.

Lemma forallb_imp {A} (f g : A -> bool) l : (forall x, f x = true -> g x = true) -> forallb f l = true -> forallb g l = true.
Proof. intros H. rewrite !forallb_forall. auto. Qed.

Lemma decimal_chars n : forallb numb (decimal n) = true /\ decimal n <> [].
Proof.
  unfold decimal. destruct (Z.to_int n) as [d|d]; cbn [NilZero.string_of_int].
  - destruct (nzuint_chars d) as [H N]. split; [|exact N].
    revert H. apply forallb_imp. intros c H. unfold numb. rewrite H. reflexivity.
  - destruct (nzuint_chars d) as [H _]. cbn [list_ascii_of_string forallb]. split; [|discriminate].
    rewrite (forallb_imp digitb numb (list_ascii_of_string (NilZero.string_of_uint d))); [reflexivity| |exact H].
    intros c K. unfold numb. rewrite K. reflexivity.
Qed.

Lemma decimal_no c n : numb c = false -> ~ In c (decimal n).
Proof.
  intros H I. destruct (decimal_chars n) as [K _]. rewrite forallb_forall in K. rewrite (K _ I) in H. discriminate.
Qed.

Lemma decimal_cons n : exists c l, decimal n = c :: l /\ numb c = true.
Proof.
  destruct (decimal_chars n) as [H N]. destruct (decimal n) as [|c l]; [congruence|].
  cbn [forallb] in H. apply andb_prop in H. exists c, l. tauto.
Qed.

Lemma str_inj s t : list_ascii_of_string s = list_ascii_of_string t -> s = t.
Proof. intros H. rewrite <- (string_of_list_ascii_of_string s), H. apply string_of_list_ascii_of_string. Qed.

Lemma to_int_small n : Z.to_int n <> Decimal.Pos Decimal.Nil /\ Z.to_int n <> Decimal.Neg Decimal.Nil.
Proof.
  split; intros H; pose proof (DecimalZ.to_int_inj n 0) as X.
  - pose proof (DecimalZ.of_to n) as Y. rewrite H in Y. cbn in Y. subst n. discriminate.
  - pose proof (DecimalZ.of_to n) as Y. rewrite H in Y. cbn in Y. subst n. discriminate.
Qed.

Lemma decimal_inj a b : decimal a = decimal b -> a = b.
Proof.
  unfold decimal. intros H. apply str_inj in H. apply DecimalZ.to_int_inj.
  pose proof (NilZero.isi (Z.to_int a) (proj1 (to_int_small a)) (proj2 (to_int_small a))) as P.
  pose proof (NilZero.isi (Z.to_int b) (proj1 (to_int_small b)) (proj2 (to_int_small b))) as Q.
  rewrite H in P. congruence.
Qed.

(** ** Cutting text *)
Lemma cut (c : ascii) : forall a b s t, ~ In c a -> ~ In c b -> a ++ c :: s = b ++ c :: t -> a = b /\ s = t.
Proof.
  induction a as [|x a IH]; intros [|y b] s t Ha Hb E; cbn [app In] in *.
  - injection E as ->. auto.
  - injection E as -> _. tauto.
  - injection E as -> _. tauto.
  - injection E as -> E. destruct (IH b s t) as [-> ->]; auto.
Qed.

Lemma lines_fun s : forall l1 l2, has_lines s l1 -> has_lines s l2 -> l1 = l2.
Proof.
  intros l1 l2 H. revert l2. induction H as [|l s ls N H IH]; intros l2 K.
  - inversion K as [|l' s' ls' N' H' E]; [reflexivity|]. destruct l'; discriminate.
  - inversion K as [E|l' s' ls' N' H' E].
    + destruct l; discriminate.
    + destruct (cut newline l' l s' s N' N E) as [-> ->]. f_equal. apply IH. exact H'.
Qed.

Lemma lines_app s ls : has_lines s ls -> forall t lt, has_lines t lt -> has_lines (s ++ t) (ls ++ lt).
Proof.
  induction 1 as [|l s ls N H IH]; intros t lt K; [exact K|].
  rewrite <- app_assoc. cbn [app]. constructor; auto.
Qed.

Lemma lines_concat (ls : list text) : Forall (fun l => ~ In newline l) ls ->
  has_lines (concat (map (fun l => l ++ [newline]) ls)) ls.
Proof.
  induction 1 as [|l ls H _ IH]; [constructor|]. cbn [map concat]. rewrite <- app_assoc. cbn [app]. constructor; auto.
Qed.

(** ** Loops append *)
Lemma for_app f g : (forall out i, f out i = out ++ g i) ->
  forall n b out, for_ b n f out = out ++ concat (map g (seq b n)).
Proof.
  intros H. induction n as [|n IH]; intros b out; cbn [for_ seq map concat]; [now rewrite app_nil_r|].
  rewrite IH, H, <- app_assoc. replace (b + 1) with (S b) by lia. reflexivity.
Qed.

Lemma map_seq_nth {A B} (f : nat -> A) (g : nat -> B) n m b : map f (seq b n) = map f (seq b m) -> n = m.
Proof. intros H. apply (f_equal (@length A)) in H. rewrite !map_length, !seq_length in H. exact H. Qed.

Lemma map_seq_ext {A} (f g : nat -> A) n : map f (seq 0 n) = map g (seq 0 n) -> forall i, i < n -> f i = g i.
Proof.
  intros H i Hi. assert (E : nth_error (map f (seq 0 n)) i = nth_error (map g (seq 0 n)) i) by congruence.
  rewrite !nth_error_map in E.
  rewrite (nth_error_nth' (seq 0 n) 0) in E by (rewrite seq_length; lia).
  rewrite seq_nth in E by lia. cbn in E. congruence.
Qed.

(** ** Vectors *)
Section Elements.
Variable A : Type.
Variable show : A -> text.

Definition vline (v : vec A) (i : nat) : text := decimal (Z.of_nat i) ++ str ": " ++ show (v_get v i).

Lemma vector_text out v : put_vector show out v =
  out ++ concat (map (fun l => l ++ [newline]) (map (vline v) (seq 0 (v_size v)))).
Proof.
  unfold put_vector. rewrite map_map. apply for_app. intros o i.
  unfold put_str, put_elt, put_int, vline, decimal, str.
  rewrite <- !app_assoc. reflexivity.
Qed.

Lemma vline_ok (v : vec A) i : legible show [newline] -> ~ In newline (vline v i).
Proof.
  intros [_ H] I. unfold vline in I. rewrite !in_app_iff in I. destruct I as [I | [I | I]].
  - revert I. apply decimal_no. reflexivity.
  - cbn in I. destruct I as [I | [I | []]]; discriminate.
  - revert I. apply H. left. reflexivity.
Qed.

Lemma vector_lines v : legible show [newline] ->
  has_lines (put_vector show [] v) (map (vline v) (seq 0 (v_size v))).
Proof.
  intros H. rewrite vector_text. cbn [app]. apply lines_concat. apply Forall_forall.
  intros l I. apply in_map_iff in I. destruct I as [i [<- _]]. apply vline_ok. exact H.
Qed.

Lemma vector_appends out v : put_vector show out v = out ++ put_vector show [] v.
Proof. rewrite !vector_text. reflexivity. Qed.

Lemma vector_inj v w out : legible show [newline] ->
  put_vector show out v = put_vector show out w -> same_vec v w.
Proof.
  intros H E. rewrite (vector_appends out v), (vector_appends out w) in E. apply app_inv_head in E.
  pose proof (vector_lines v H) as P. rewrite E in P.
  pose proof (lines_fun _ _ _ P (vector_lines w H)) as L.
  assert (S : v_size v = v_size w)
    by (apply (f_equal (@length text)) in L; rewrite !map_length, !seq_length in L; exact L).
  split; [exact S|]. intros i Hi. rewrite <- S in L. pose proof (map_seq_ext _ _ _ L i Hi) as X.
  unfold vline in X. apply app_inv_head in X. apply app_inv_head in X. apply H. exact X.
Qed.

(** ** Matrices *)
Definition row (n : nat) (g : nat -> A) : text := concat (map (fun c => str "  " ++ show (g c)) (seq 0 n)).
Definition mline (m : mat A) (r : nat) : text := decimal (Z.of_nat r) ++ str ": " ++ row (m_cols m) (m_get m r).

Lemma matrix_text out m : put_matrix show out m =
  out ++ concat (map (fun l => l ++ [newline]) (map (mline m) (seq 0 (m_rows m)))).
Proof.
  unfold put_matrix. rewrite map_map. apply for_app. intros o r.
  rewrite (for_app _ (fun c => str "  " ++ show (m_get m r c)))
    by (intros o' c; unfold put_elt, put_str; rewrite <- app_assoc; reflexivity).
  unfold put_nl, put_str, put_int, mline, decimal, str, row. rewrite <- !app_assoc. reflexivity.
Qed.

Lemma row_no n g c : c <> " "%char -> (forall x, ~ In c (show x)) -> ~ In c (row n g).
Proof.
  intros N H I. unfold row in I. apply in_concat in I. destruct I as [l [I J]].
  apply in_map_iff in I. destruct I as [k [<- _]]. rewrite in_app_iff in J. destruct J as [J | J].
  - cbn in J. destruct J as [J | [J | []]]; congruence.
  - apply (H _ J).
Qed.

Lemma mline_ok (m : mat A) r : (forall x, ~ In newline (show x)) -> ~ In newline (mline m r).
Proof.
  intros H I. unfold mline in I. rewrite !in_app_iff in I. destruct I as [I | [I | I]].
  - revert I. apply decimal_no. reflexivity.
  - cbn in I. destruct I as [I | [I | []]]; discriminate.
  - revert I. apply row_no; [discriminate|exact H].
Qed.

Lemma matrix_lines m : (forall x, ~ In newline (show x)) ->
  has_lines (put_matrix show [] m) (map (mline m) (seq 0 (m_rows m))).
Proof.
  intros H. rewrite matrix_text. cbn [app]. apply lines_concat. apply Forall_forall.
  intros l I. apply in_map_iff in I. destruct I as [i [<- _]]. apply mline_ok. exact H.
Qed.

Definition blank_or_end (t : text) : Prop := t = [] \/ exists t', t = " "%char :: t'.

Lemma word : forall a b s t, ~ In " "%char a -> ~ In " "%char b -> blank_or_end s -> blank_or_end t ->
  a ++ s = b ++ t -> a = b /\ s = t.
Proof.
  induction a as [|x a IH]; intros [|y b] s t Ha Hb Hs Ht E; cbn [app In] in *.
  - auto.
  - destruct Hs as [-> | [s' ->]]; [discriminate|]. injection E as <- _. tauto.
  - destruct Ht as [-> | [t' ->]]; [discriminate|]. injection E as -> _. tauto.
  - injection E as -> E. destruct (IH b s t) as [-> ->]; auto.
Qed.

Lemma words_inj : forall l1 l2 : list text, Forall (fun w => ~ In " "%char w) l1 -> Forall (fun w => ~ In " "%char w) l2 ->
  concat (map (fun w => str "  " ++ w) l1) = concat (map (fun w => str "  " ++ w) l2) -> l1 = l2.
Proof.
  induction l1 as [|a l1 IH]; intros [|b l2] H1 H2 E; cbn [map concat] in E; try reflexivity; try discriminate.
  rewrite <- !app_assoc in E. apply app_inv_head in E.
  inversion H1; inversion H2; subst.
  destruct (word a b (concat (map (fun w => str "  " ++ w) l1)) (concat (map (fun w => str "  " ++ w) l2))) as [-> K]; auto.
  - destruct l1; [left; reflexivity|right; eexists; cbn; reflexivity].
  - destruct l2; [left; reflexivity|right; eexists; cbn; reflexivity].
  - f_equal. apply IH; assumption.
Qed.

Lemma row_words n g : row n g = concat (map (fun w => str "  " ++ w) (map (fun c => show (g c)) (seq 0 n))).
Proof. unfold row. rewrite map_map. reflexivity. Qed.

Lemma row_inj n g n' g' : legible show [newline; " "%char] -> row n g = row n' g' ->
  n = n' /\ forall c, c < n -> g c = g' c.
Proof.
  intros [Hi Hs] E. rewrite !row_words in E.
  assert (F : forall k (h : nat -> A), Forall (fun w => ~ In " "%char w) (map (fun c => show (h c)) (seq 0 k))).
  { intros k h. apply Forall_forall. intros w I. apply in_map_iff in I. destruct I as [c [<- _]].
    apply Hs. right. left. reflexivity. }
  apply words_inj in E; [|apply F|apply F].
  assert (S : n = n') by (apply (f_equal (@length text)) in E; rewrite !map_length, !seq_length in E; exact E).
  split; [exact S|]. subst n'. intros c Hc. apply Hi. apply (map_seq_ext _ _ _ E c Hc).
Qed.

Lemma matrix_appends out v : put_matrix show out v = out ++ put_matrix show [] v.
Proof. rewrite !matrix_text. reflexivity. Qed.

Lemma matrix_inj v w out : legible show [newline; " "%char] ->
  put_matrix show out v = put_matrix show out w ->
  m_rows v = m_rows w /\ (0 < m_rows v -> same_mat v w).
Proof.
  intros H E. rewrite (matrix_appends out v), (matrix_appends out w) in E. apply app_inv_head in E.
  assert (N : forall x, ~ In newline (show x)) by (intros x; apply H; left; reflexivity).
  pose proof (matrix_lines v N) as P. rewrite E in P.
  pose proof (lines_fun _ _ _ P (matrix_lines w N)) as L.
  assert (S : m_rows v = m_rows w)
    by (apply (f_equal (@length text)) in L; rewrite !map_length, !seq_length in L; exact L).
  rewrite <- S in L.
  assert (R : forall r, r < m_rows v -> m_cols v = m_cols w /\ forall c, c < m_cols v -> m_get v r c = m_get w r c).
  { intros r Hr. pose proof (map_seq_ext _ _ _ L r Hr) as X. unfold mline in X.
    apply app_inv_head in X. apply app_inv_head in X. apply row_inj; assumption. }
  split; [exact S|]. intros K. split; [exact S|]. split; [apply (R 0 K)|].
  intros r c Hr Hc. apply (R r Hr). exact Hc.
Qed.

(** ** Tensors *)
Definition trow (n : nat) (g : nat -> A) : text := concat (map (fun c => show (g c)) (seq 0 n)).
Definition tline (t : ten A) (z r : nat) : text := decimal (Z.of_nat r) ++ str ": " ++ trow (t_size2 t) (t_get t z r).
Definition plane (t : ten A) (z : nat) : list text :=
  (str "plane " ++ decimal (Z.of_nat z) ++ str ":") :: map (tline t z) (seq 0 (t_size1 t)) ++ [[]].

Lemma tensor_text out t : put_tensor show out t =
  out ++ concat (map (fun l => l ++ [newline]) (flat_map (plane t) (seq 0 (t_size0 t)))).
Proof.
  unfold put_tensor.
  rewrite (for_app _ (fun z => concat (map (fun l => l ++ [newline]) (plane t z)))).
  - f_equal. generalize (seq 0 (t_size0 t)). induction l as [|z l IH]; [reflexivity|].
    cbn [map concat flat_map]. rewrite map_app, concat_app, IH. reflexivity.
  - intros o z.
    rewrite (for_app _ (fun r => tline t z r ++ [newline])).
    + unfold plane. cbn [map concat]. rewrite map_app, concat_app, map_map. cbn [map concat].
      unfold put_nl, put_str, put_int, decimal, str. rewrite <- !app_assoc. reflexivity.
    + intros o' r.
      rewrite (for_app _ (fun c => show (t_get t z r c))) by (intros; reflexivity).
      unfold put_nl, put_str, put_int, tline, decimal, str, trow. rewrite <- !app_assoc. reflexivity.
Qed.

Lemma tensor_appends out v : put_tensor show out v = out ++ put_tensor show [] v.
Proof. rewrite !tensor_text. reflexivity. Qed.

Lemma tline_ok t z r : (forall x, ~ In newline (show x)) -> ~ In newline (tline t z r).
Proof.
  intros H I. unfold tline in I. rewrite !in_app_iff in I. destruct I as [I | [I | I]].
  - revert I. apply decimal_no. reflexivity.
  - cbn in I. destruct I as [I | [I | []]]; discriminate.
  - unfold trow in I. apply in_concat in I. destruct I as [l [I J]].
    apply in_map_iff in I. destruct I as [c [<- _]]. apply (H _ J).
Qed.

Lemma tensor_lines t : (forall x, ~ In newline (show x)) ->
  has_lines (put_tensor show [] t) (flat_map (plane t) (seq 0 (t_size0 t))).
Proof.
  intros H. rewrite tensor_text. cbn [app]. apply lines_concat. apply Forall_forall.
  intros l I. apply in_flat_map in I. destruct I as [z [_ I]]. unfold plane in I. destruct I as [<- | I].
  - rewrite !in_app_iff. intros [J | [J | J]].
    + cbn in J. repeat (destruct J as [J | J]; [discriminate|]). exact J.
    + revert J. apply decimal_no. reflexivity.
    + cbn in J. destruct J as [J | []]; discriminate.
  - rewrite in_app_iff in I. destruct I as [I | [<- | []]]; [|intros []].
    apply in_map_iff in I. destruct I as [r [<- _]]. apply tline_ok. exact H.
Qed.

Lemma cut_lines : forall (a b s t : list text), ~ In [] a -> ~ In [] b -> a ++ [] :: s = b ++ [] :: t -> a = b /\ s = t.
Proof.
  induction a as [|x a IH]; intros [|y b] s t Ha Hb E; cbn [app In] in *.
  - injection E as ->. auto.
  - injection E as E1 _. subst. tauto.
  - injection E as E1 _. subst. tauto.
  - injection E as -> E. destruct (IH b s t) as [-> ->]; auto.
Qed.

Lemma tlines_ne t z n : ~ In [] (map (tline t z) (seq 0 n)).
Proof.
  intros I. apply in_map_iff in I. destruct I as [r [E _]]. unfold tline in E.
  destruct (decimal_cons (Z.of_nat r)) as [c [l [D _]]]. rewrite D in E. discriminate.
Qed.

Lemma planes_inj t u : forall n m b, flat_map (plane t) (seq b n) = flat_map (plane u) (seq b m) ->
  n = m /\ forall z, b <= z < b + n -> map (tline t z) (seq 0 (t_size1 t)) = map (tline u z) (seq 0 (t_size1 u)).
Proof.
  induction n as [|n IH]; intros [|m] b E; cbn [seq flat_map] in E.
  - split; [reflexivity|lia].
  - discriminate.
  - discriminate.
  - unfold plane at 1 3 in E. cbn [app] in E.
    assert (E' : map (tline t b) (seq 0 (t_size1 t)) ++ [] :: flat_map (plane t) (seq (S b) n) =
                 map (tline u b) (seq 0 (t_size1 u)) ++ [] :: flat_map (plane u) (seq (S b) m)).
    { rewrite <- !app_assoc in E. cbn [app] in E. apply (f_equal (@tl text)) in E. exact E. }
    apply cut_lines in E'; [|apply tlines_ne|apply tlines_ne]. destruct E' as [E1 E2].
    destruct (IH m (S b) E2) as [-> K]. split; [reflexivity|].
    intros z Hz. destruct (Nat.eq_dec z b) as [-> | N]; [exact E1|apply K; lia].
Qed.

Lemma fixed_inj k : (forall x y, show x = show y -> x = y) -> (forall x, length (show x) = k) -> 0 < k ->
  forall l1 l2, concat (map show l1) = concat (map show l2) -> l1 = l2.
Proof.
  intros Hi Hk Pk. induction l1 as [|a l1 IH]; intros [|b l2] E; cbn [map concat] in E; [reflexivity| | |].
  - apply (f_equal (@length ascii)) in E. rewrite app_length, Hk in E. cbn in E. lia.
  - apply (f_equal (@length ascii)) in E. rewrite app_length, Hk in E. cbn in E. lia.
  - assert (L : length (show a) = length (show b)) by (rewrite !Hk; reflexivity).
    assert (X : firstn (length (show a)) (show a ++ concat (map show l1)) =
                firstn (length (show b)) (show b ++ concat (map show l2))) by (rewrite E, L; reflexivity).
    rewrite !firstn_app, !Nat.sub_diag, !firstn_all in X. cbn [firstn] in X. rewrite !app_nil_r in X.
    rewrite X in E. apply app_inv_head in E. f_equal; [apply Hi, X|apply IH, E].
Qed.

Lemma tensor_fixed k v w out : legible show [newline] -> (forall x, length (show x) = k) -> 0 < k ->
  0 < t_size0 v -> 0 < t_size1 v ->
  put_tensor show out v = put_tensor show out w -> same_ten v w.
Proof.
  intros [Hi Hs] Hk Pk P0 P1 E. rewrite (tensor_appends out v), (tensor_appends out w) in E. apply app_inv_head in E.
  assert (N : forall x, ~ In newline (show x)) by (intros x; apply Hs; left; reflexivity).
  pose proof (tensor_lines v N) as P. rewrite E in P.
  pose proof (lines_fun _ _ _ P (tensor_lines w N)) as L.
  destruct (planes_inj _ _ _ _ _ L) as [S0 K].
  assert (S1 : t_size1 v = t_size1 w).
  { pose proof (K 0 ltac:(lia)) as X. apply (f_equal (@length text)) in X. rewrite !map_length, !seq_length in X. exact X. }
  assert (R : forall z r, z < t_size0 v -> r < t_size1 v ->
     t_size2 v = t_size2 w /\ forall c, c < t_size2 v -> t_get v z r c = t_get w z r c).
  { intros z r Hz Hr. pose proof (K z ltac:(lia)) as X. rewrite <- S1 in X.
    pose proof (map_seq_ext _ _ _ X r Hr) as Y. unfold tline in Y. apply app_inv_head in Y. apply app_inv_head in Y.
    unfold trow in Y. rewrite <- !(map_map (t_get _ z r) show) in Y. apply (fixed_inj k Hi Hk Pk) in Y.
    assert (S2 : t_size2 v = t_size2 w) by (apply (f_equal (@length A)) in Y; rewrite !map_length, !seq_length in Y; exact Y).
    split; [exact S2|]. intros c Hc. rewrite <- S2 in Y. apply (map_seq_ext _ _ _ Y c Hc). }
  split; [exact S0|]. split; [exact S1|]. split; [apply (R 0 0); lia|]. intros z r c Hz Hr. apply (R z r Hz Hr).
Qed.

Lemma vector_format v : legible show [newline] -> exists ls, has_lines (put_vector show [] v) ls /\
  length ls = v_size v /\
  forall i, i < v_size v -> nth_error ls i = Some (decimal (Z.of_nat i) ++ ":"%char :: " "%char :: show (v_get v i)).
Proof.
  intros H. exists (map (vline v) (seq 0 (v_size v))). split; [apply vector_lines; exact H|].
  split; [rewrite map_length, seq_length; reflexivity|]. intros i Hi.
  rewrite nth_error_map, (nth_error_nth' (seq 0 (v_size v)) 0) by (rewrite seq_length; lia).
  rewrite seq_nth by lia. reflexivity.
Qed.

Lemma matrix_format m : legible show [newline] -> exists ls, has_lines (put_matrix show [] m) ls /\
  length ls = m_rows m /\
  forall r, r < m_rows m -> nth_error ls r = Some (decimal (Z.of_nat r) ++ ":"%char :: " "%char ::
     concat (map (fun c => " "%char :: " "%char :: show (m_get m r c)) (seq 0 (m_cols m)))).
Proof.
  intros H. exists (map (mline m) (seq 0 (m_rows m))). split; [apply matrix_lines; intros x; apply H; left; reflexivity|].
  split; [rewrite map_length, seq_length; reflexivity|]. intros i Hi.
  rewrite nth_error_map, (nth_error_nth' (seq 0 (m_rows m)) 0) by (rewrite seq_length; lia).
  rewrite seq_nth by lia. reflexivity.
Qed.

End Elements.

(** ** Domains and indices *)
Definition dtext (d : dom1) : text :=
  str "(" ++ decimal (d_first d) ++ str ", " ++ decimal (d_stride d) ++ str ", " ++ decimal (d_length d) ++ str ")".

Lemma dom1_text out d : put_dom1 out d = out ++ dtext d.
Proof. unfold put_dom1, put_str, put_int, dtext, decimal, str. rewrite <- !app_assoc. reflexivity. Qed.

Lemma dtext_inj d e s t : dtext d ++ s = dtext e ++ t -> d = e /\ s = t.
Proof.
  destruct d as [f k l], e as [f' k' l']. unfold dtext. cbn [d_first d_stride d_length]. intros E.
  rewrite <- !app_assoc in E. apply app_inv_head in E. cbn [str list_ascii_of_string app] in E.
  apply (cut ","%char) in E; try (apply decimal_no; reflexivity). destruct E as [E1 E]. injection E as E.
  apply (cut ","%char) in E; try (apply decimal_no; reflexivity). destruct E as [E2 E]. injection E as E.
  apply (cut ")"%char) in E; try (apply decimal_no; reflexivity). destruct E as [E3 E].
  apply decimal_inj in E1, E2, E3. subst. auto.
Qed.

Lemma dom1_inj out d e : put_dom1 out d = put_dom1 out e -> d = e.
Proof.
  rewrite !dom1_text. intros E. apply app_inv_head in E.
  apply (dtext_inj d e [] []). rewrite !app_nil_r. exact E.
Qed.

Lemma dom2_inj out d0 d1 e0 e1 : put_dom2 out d0 d1 = put_dom2 out e0 e1 -> d0 = e0 /\ d1 = e1.
Proof.
  unfold put_dom2, put_str. rewrite !dom1_text. rewrite <- !app_assoc. intros E.
  apply app_inv_head in E. apply app_inv_head in E. apply dtext_inj in E. destruct E as [-> E].
  apply app_inv_head in E. apply dtext_inj in E. destruct E as [-> _]. auto.
Qed.

Lemma dom3_inj out d0 d1 d2 e0 e1 e2 : put_dom3 out d0 d1 d2 = put_dom3 out e0 e1 e2 -> d0 = e0 /\ d1 = e1 /\ d2 = e2.
Proof.
  unfold put_dom3, put_str. rewrite !dom1_text. rewrite <- !app_assoc. intros E.
  apply app_inv_head in E. apply app_inv_head in E. apply dtext_inj in E. destruct E as [-> E].
  apply app_inv_head in E. apply dtext_inj in E. destruct E as [-> E].
  apply app_inv_head in E. apply dtext_inj in E. destruct E as [-> _]. auto.
Qed.

Definition etext (first : bool) (x : Z) : text := (if first then [] else str ", ") ++ decimal x.
Fixpoint entries (first : bool) (l : list Z) : text :=
  match l with [] => [] | x :: l' => etext first x ++ entries false l' end.

Lemma entries_text : forall l d out, put_entries out d l = out ++ entries (d =? 0) l.
Proof.
  induction l as [|x l IH]; intros d out; cbn [put_entries entries]; [now rewrite app_nil_r|].
  rewrite IH. replace (d + 1 =? 0) with false by (symmetry; apply Nat.eqb_neq; lia).
  unfold etext, put_int, put_str, decimal, str. destruct d; cbn [Nat.eqb Nat.ltb Nat.leb]; rewrite <- ?app_assoc; reflexivity.
Qed.

(** Cutting decimal digits off. *)
Definition nonnum (t : text) : Prop := match t with [] => True | c :: _ => numb c = false end.
Lemma number : forall a b s t, forallb numb a = true -> forallb numb b = true -> nonnum s -> nonnum t ->
  a ++ s = b ++ t -> a = b /\ s = t.
Proof.
  induction a as [|x a IH]; intros [|y b] s t Ha Hb Hs Ht E; cbn [app forallb] in *.
  - auto.
  - apply andb_prop in Hb. subst s. cbn [nonnum] in Hs. destruct Hb; congruence.
  - apply andb_prop in Ha. subst t. cbn [nonnum] in Ht. destruct Ha; congruence.
  - apply andb_prop in Ha, Hb. destruct Ha, Hb. injection E as -> E. destruct (IH b s t) as [-> ->]; auto.
Qed.

Lemma tail_nonnum l : nonnum (entries false l ++ str ")").
Proof. destruct l; reflexivity. Qed.

Lemma entries_inj : forall l l', entries false l ++ str ")" = entries false l' ++ str ")" -> l = l'.
Proof.
  induction l as [|x l IH]; intros [|y l'] E; cbn [entries] in E; [reflexivity|discriminate|discriminate|].
  unfold etext in E. rewrite <- !app_assoc in E. apply app_inv_head in E.
  apply number in E; try apply decimal_chars; try apply tail_nonnum. destruct E as [E1 E2].
  apply decimal_inj in E1. subst. f_equal. auto.
Qed.

Lemma index_inj out l l' : put_index out l = put_index out l' -> l = l'.
Proof.
  unfold put_index, put_str. rewrite !entries_text. cbn [Nat.eqb]. rewrite <- !app_assoc. intros E.
  apply app_inv_head in E. apply app_inv_head in E.
  destruct l as [|x l], l' as [|y l']; cbn [entries etext app] in E.
  - reflexivity.
  - destruct (decimal_cons y) as [c [t [D K]]]. rewrite D in E. cbn in E. injection E as E _. subst c. discriminate.
  - destruct (decimal_cons x) as [c [t [D K]]]. rewrite D in E. cbn in E. injection E as E _. subst c. discriminate.
  - unfold etext in E. cbn [app] in E. rewrite <- !app_assoc in E.
    apply number in E; try apply decimal_chars; try apply tail_nonnum. destruct E as [E1 E2].
    apply decimal_inj in E1. apply entries_inj in E2. congruence.
Qed.

Lemma dom1_appends out d : put_dom1 out d = out ++ put_dom1 [] d.
Proof. rewrite !dom1_text. reflexivity. Qed.

Lemma decimal_legible c : numb c = false -> forall sep, Forall (fun c => numb c = false) sep -> legible decimal sep.
Proof.
  intros _ sep H. split; [exact decimal_inj|]. intros x k I. rewrite Forall_forall in H. apply decimal_no. auto.
Qed.

Lemma decimal_legible2 : legible decimal [newline; " "%char].
Proof. apply (decimal_legible newline); [reflexivity|]. repeat constructor. Qed.
Lemma decimal_legible1 : legible decimal [newline].
Proof. apply (decimal_legible newline); [reflexivity|]. repeat constructor. Qed.

(** Complex numbers (std::complex's operator<<): "(re,im)". *)
Definition ctext (x : Z * Z) : text := str "(" ++ decimal (fst x) ++ str "," ++ decimal (snd x) ++ str ")".
Lemma complex_legible : legible ctext [newline; " "%char].
Proof.
  split.
  - intros [a b] [a' b'] E. unfold ctext in E. cbn [fst snd] in E. apply app_inv_head in E. cbn [str list_ascii_of_string app] in E.
    apply (cut ","%char) in E; try (apply decimal_no; reflexivity). destruct E as [E1 E].
    apply (cut ")"%char) in E; try (apply decimal_no; reflexivity). destruct E as [E2 _].
    apply decimal_inj in E1, E2. congruence.
  - intros [a b] c I J. unfold ctext in J. cbn [fst snd] in J. rewrite !in_app_iff in J.
    assert (N : numb c = false) by (destruct I as [<- | [<- | []]]; reflexivity).
    destruct J as [J | [J | [J | [J | J]]]]; try (revert J; apply decimal_no; exact N);
      cbn in J; destruct J as [<- | []]; destruct I as [I | [I | []]]; discriminate.
Qed.

Lemma index_format x l : put_index [] (x :: l) =
  "("%char :: decimal x ++ concat (map (fun y => ","%char :: " "%char :: decimal y) l) ++ [")"%char].
Proof.
  unfold put_index, put_str. rewrite entries_text. cbn [Nat.eqb entries etext app str list_ascii_of_string].
  unfold etext. cbn [app]. rewrite <- app_assoc. do 2 f_equal.
  f_equal. induction l as [|y l IH]; [reflexivity|]. cbn [entries map concat]. rewrite IH. reflexivity.
Qed.

Lemma domain_format d e f :
  let one d := "("%char :: decimal (d_first d) ++ ","%char :: " "%char :: decimal (d_stride d)
                 ++ ","%char :: " "%char :: decimal (d_length d) ++ [")"%char] in
  put_dom1 [] d = one d /\
  put_dom2 [] d e = "("%char :: one d ++ ","%char :: " "%char :: one e ++ [")"%char] /\
  put_dom3 [] d e f = "("%char :: one d ++ ","%char :: " "%char :: one e ++ ","%char :: " "%char :: one f ++ [")"%char].
Proof.
  intros one. assert (H : forall out x, put_dom1 out x = out ++ one x) by (intros; rewrite dom1_text; reflexivity).
  unfold put_dom2, put_dom3, put_str. rewrite !H. rewrite <- ?app_assoc. auto.
Qed.

Lemma tensor_format A (show : A -> text) t : legible show [newline] -> exists planes : list (list text),
  has_lines (put_tensor show [] t) (concat planes) /\ length planes = t_size0 t /\
  forall z, z < t_size0 t -> exists rows,
    nth_error planes z = Some ((list_ascii_of_string "plane " ++ decimal (Z.of_nat z) ++ [":"%char]) :: rows ++ [[]]) /\
    length rows = t_size1 t /\
    forall r, r < t_size1 t -> nth_error rows r =
      Some (decimal (Z.of_nat r) ++ ":"%char :: " "%char :: concat (map (fun c => show (t_get t z r c)) (seq 0 (t_size2 t)))).
Proof.
  intros H. exists (map (plane A show t) (seq 0 (t_size0 t))).
  split; [rewrite <- flat_map_concat_map; apply tensor_lines; intros x; apply H; left; reflexivity|].
  split; [rewrite map_length, seq_length; reflexivity|]. intros z Hz.
  exists (map (tline A show t z) (seq 0 (t_size1 t))). split; [|split; [rewrite map_length, seq_length; reflexivity|]].
  - rewrite nth_error_map, (nth_error_nth' (seq 0 (t_size0 t)) 0) by (rewrite seq_length; lia).
    rewrite seq_nth by lia. reflexivity.
  - intros r Hr. rewrite nth_error_map, (nth_error_nth' (seq 0 (t_size1 t)) 0) by (rewrite seq_length; lia).
    rewrite seq_nth by lia. reflexivity.
Qed.
