(** Tactics for running the Python programs on symbolic arguments. *)
From Coq Require Import String List ZArith Bool Lia.
From Verif Require Import PyLang PyProg PyCalls.
Import ListNotations.
Local Open Scope string_scope.
Local Open Scope Z_scope.

Lemma fits_len : forall z, 0 <= z -> fits NLen (VInt z) = true.
Proof. intros z H. cbn. unfold nonneg. apply Z.leb_le. exact H. Qed.
Lemma fits_u32 : forall z, 0 <= z < 4294967296 -> fits NU32 (VInt z) = true.
Proof. intros z H. cbn. unfold below_u32. apply andb_true_intro. split; [apply Z.leb_le | apply Z.ltb_lt]; lia. Qed.
Lemma fits_i32 : forall z, -2147483648 <= z < 2147483648 -> fits NI32 (VInt z) = true.
Proof. intros z H. cbn. unfold in_i32. apply andb_true_intro. split; [apply Z.leb_le | apply Z.ltb_lt]; lia. Qed.
Lemma tests_yes : forall W c y n, holds c = true -> outcome_of W (Tests c y n) = outcome_of W y.
Proof. intros W c y n H. cbn. rewrite H. reflexivity. Qed.
Lemma tests_no : forall W c y n, holds c = false -> outcome_of W (Tests c y n) = outcome_of W n.
Proof. intros W c y n H. cbn. rewrite H. reflexivity. Qed.

(** Run the program. *)
Ltac run_py :=
  unfold py;
  repeat match goal with
  | |- context [tree_of ?r] =>
    let t := eval cbv -[Z.add Z.sub Z.min w_num w_index] in (tree_of r) in
    replace (tree_of r) with t by (vm_cast_no_check (eq_refl t))
  end.
(** Follow the paths. *)
Ltac follow1 :=
  match goal with
  | |- context [outcome_of ?W (Tests (Fits ?t ?v) ?y ?n)] =>
    rewrite (tests_yes W (Fits t v) y n) by (first [apply fits_len | apply fits_u32 | apply fits_i32]; lia)
  | |- context [outcome_of ?W (Tests (Have true) ?y ?n)] => rewrite (tests_yes W (Have true) y n) by reflexivity
  | |- context [outcome_of ?W (Tests (Have ?b) ?y ?n)] => rewrite (tests_yes W (Have b) y n) by (cbn; assumption)
  | |- context [outcome_of ?W (Tests (Have ?b) ?y ?n)] => rewrite (tests_no W (Have b) y n) by (cbn; assumption)
  | |- context [outcome_of ?W (Asks ?e ?t ?n ?y)] =>
    change (outcome_of W (Asks e t n y)) with
      (match w_ok W e with None => outcome_of W t | Some true => outcome_of W y | Some false => outcome_of W n end);
    destruct (w_ok W e) as [[|]|] eqn:?
  | |- context [outcome_of ?W (Leaf ?o)] => change (outcome_of W (Leaf o)) with o
  end.
Ltac follow :=
  unfold new_vector, new_matrix, calling, asking, number_from, index_from; cbn [app complex_over real_under];
  repeat (follow1; repeat match goal with H : w_ok _ _ = _ |- _ => rewrite H in *; clear H end);
  try reflexivity.
Ltac by_running := run_py; follow.

Ltac each_in H := cbn [In] in H; repeat (destruct H as [H | H]; [subst | ]); try (exfalso; exact H); try contradiction.
Ltac each_name H := cbn [names] in H; repeat (destruct H as [H | H]); subst.

Lemma fir_ok :
  forall W ld k d i len s l dec st nn h,
  is_real d -> 0 <= l -> 0 <= dec -> 0 <= nn < 4294967296 ->
  exists fields,
    py W ld k (VClass "vsip.signal.fir" "fir")
      [vec i d len; VEnum "symmetry" s; VInt l; VInt dec; VEnum "obj_state" st; VInt nn; VEnum "alg_hint" h] =
    calling W "create_fir"
      [("k", VBlock i d [len]); ("s", VEnum "symmetry" s); ("l", VInt l); ("d", VInt dec); ("c", VEnum "obj_state" st);
       ("n", VInt nn); ("h", VEnum "alg_hint" h)] []
      (Returns (VInst "vsip.signal.fir" "fir" fields)) /\
    forall ld' k' a na b nb,
      py W ld' k' (VInst "vsip.signal.fir" "fir" fields) [vec a d na; vec b d nb] =
      calling W "fir::op" [("self", VObj "fir" d k); ("i", VBlock a d [na]); ("o", VBlock b d [nb])] [] (Returns VNone).
Proof.
  intros W ld k d i len s l dec st nn h [-> | ->] H1 H2 H3; eexists; (split; [by_running | intros; by_running]).
Qed.

Lemma fft_forward_ok :
  forall W ld k t d l s nn h,
  is_real d -> names t d -> 0 <= l -> 0 <= nn < 4294967296 ->
  exists fields,
    py W ld k (VClass "vsip.signal.fft" "fft") [VType t; VInt (-1); VInt l; VNum s; VInt nn; VEnum "alg_hint" h] =
    calling W "create_fft" [("length", VInt l); ("scale", VNum s); ("n", VInt nn); ("h", VEnum "alg_hint" h)] []
      (Returns (VInst "vsip.signal.fft" "fft" fields)) /\
    forall ld' k' a na b nb,
      py W ld' k' (VInst "vsip.signal.fft" "fft" fields) [vec a d na; vec b (complex_over d) nb] =
      calling W "fft::op" [("self", VObj "fft" d k); ("i", VBlock a d [na]); ("o", VBlock b (complex_over d) [nb])] [] (Returns VNone).
Proof.
  intros W ld k t d l s nn h [-> | ->] Ht H1 H2; each_name Ht; eexists; (split; [by_running | intros; by_running]).
Qed.

Lemma fftm_forward_ok :
  forall W ld k t d r c s ax nn h,
  is_real d -> names t d -> 0 <= r -> 0 <= c -> -2147483648 <= ax < 2147483648 -> 0 <= nn < 4294967296 ->
  exists fields,
    py W ld k (VClass "vsip.signal.fftm" "fftm")
      [VType t; VInt (-1); VInt r; VInt c; VNum s; VInt ax; VInt nn; VEnum "alg_hint" h] =
    calling W "create_fftm"
      [("rows", VInt r); ("cols", VInt c); ("scale", VNum s); ("a", VInt ax); ("n", VInt nn); ("h", VEnum "alg_hint" h)] []
      (Returns (VInst "vsip.signal.fftm" "fftm" fields)) /\
    forall ld' k' a ra ca b rb cb,
      py W ld' k' (VInst "vsip.signal.fftm" "fftm" fields) [mat a d ra ca; mat b (complex_over d) rb cb] =
      calling W "fftm::op"
        [("self", VObj "fftm" d k); ("i", VBlock a d [ra; ca]); ("o", VBlock b (complex_over d) [rb; cb])] [] (Returns VNone).
Proof.
  intros W ld k t d r c s ax nn h [-> | ->] Ht H1 H2 H3 H4; each_name Ht; eexists; (split; [by_running | intros; by_running]).
Qed.

Lemma fft_inverse_ok :
  forall W ld k t d l s nn h,
  is_real d -> names t d -> 0 <= l -> 0 <= nn < 4294967296 ->
  exists fields,
    py W ld k (VClass "vsip.signal.fft" "fft") [VType t; VInt (1); VInt l; VNum s; VInt nn; VEnum "alg_hint" h] =
    calling W "create_ifft" [("length", VInt l); ("scale", VNum s); ("n", VInt nn); ("h", VEnum "alg_hint" h)] []
      (Returns (VInst "vsip.signal.fft" "fft" fields)) /\
    forall ld' k' a na b nb,
      py W ld' k' (VInst "vsip.signal.fft" "fft" fields) [vec a (complex_over d) na; vec b d nb] =
      calling W "ifft::op" [("self", VObj "ifft" d k); ("i", VBlock a (complex_over d) [na]); ("o", VBlock b d [nb])] [] (Returns VNone).
Proof.
  intros W ld k t d l s nn h [-> | ->] Ht H1 H2; each_name Ht; eexists; (split; [by_running | intros; by_running]).
Qed.

Lemma fftm_inverse_ok :
  forall W ld k t d r c s ax nn h,
  is_real d -> names t d -> 0 <= r -> 0 <= c -> -2147483648 <= ax < 2147483648 -> 0 <= nn < 4294967296 ->
  exists fields,
    py W ld k (VClass "vsip.signal.fftm" "fftm")
      [VType t; VInt (1); VInt r; VInt c; VNum s; VInt ax; VInt nn; VEnum "alg_hint" h] =
    calling W "create_ifftm"
      [("rows", VInt r); ("cols", VInt c); ("scale", VNum s); ("a", VInt ax); ("n", VInt nn); ("h", VEnum "alg_hint" h)] []
      (Returns (VInst "vsip.signal.fftm" "fftm" fields)) /\
    forall ld' k' a ra ca b rb cb,
      py W ld' k' (VInst "vsip.signal.fftm" "fftm" fields) [mat a (complex_over d) ra ca; mat b d rb cb] =
      calling W "ifftm::op"
        [("self", VObj "ifftm" d k); ("i", VBlock a (complex_over d) [ra; ca]); ("o", VBlock b d [rb; cb])] [] (Returns VNone).
Proof.
  intros W ld k t d r c s ax nn h [-> | ->] Ht H1 H2 H3 H4; each_name Ht; eexists; (split; [by_running | intros; by_running]).
Qed.

Lemma fftm_complex_ok :
  forall W ld k t dir r c s ax nn h,
  t = TyComplex \/ t = Dtype C128 -> dir = -1 \/ dir = 1 ->
  0 <= r -> 0 <= c -> -2147483648 <= ax < 2147483648 -> 0 <= nn < 4294967296 ->
  let cls := if dir =? -1 then "fftm" else "ifftm" in
  exists fields,
    py W ld k (VClass "vsip.signal.fftm" "fftm")
      [VType t; VInt dir; VInt r; VInt c; VNum s; VInt ax; VInt nn; VEnum "alg_hint" h] =
    calling W (if dir =? -1 then "create_fftm" else "create_ifftm")
      [("rows", VInt r); ("cols", VInt c); ("scale", VNum s); ("a", VInt ax); ("n", VInt nn); ("h", VEnum "alg_hint" h)] []
      (Returns (VInst "vsip.signal.fftm" "fftm" fields)) /\
    (forall ld' k' a ra ca b rb cb,
      py W ld' k' (VInst "vsip.signal.fftm" "fftm" fields) [mat a C128 ra ca; mat b C128 rb cb] =
      calling W (if dir =? -1 then "fftm::op" else "ifftm::op")
        [("self", VObj cls C128 k); ("i", VBlock a C128 [ra; ca]); ("o", VBlock b C128 [rb; cb])] [] (Returns VNone)) /\
    (forall ld' k' a ra ca,
      py W ld' k' (VInst "vsip.signal.fftm" "fftm" fields) [mat a C128 ra ca] =
      calling W (if dir =? -1 then "fftm::ip" else "ifftm::ip")
        [("self", VObj cls C128 k); ("io", VBlock a C128 [ra; ca])] [] (Returns VNone)).
Proof.
  intros W ld k t dir r c s ax nn h [-> | ->] [-> | ->] H1 H2 H3 H4; cbn [Z.eqb Pos.eqb]; cbv zeta; eexists;
  (split; [by_running | split; intros; by_running]).
Qed.

Lemma unary_ok :
  forall W ld k f d,
  (is_real d /\ In f ["acos"; "asin"; "atan"; "ceil"; "cos"; "cosh"; "exp"; "exp10"; "floor"; "log"; "log10"; "magsq"; "neg"; "sin"]) \/
  (is_complex d /\ In f ["cos"; "cosh"; "exp"; "log"; "log10"; "neg"; "sin"]) ->
  ld (block_module d) = true ->
  (forall i n,
    py W ld k (VFun "vsip.math.elementwise" f) [vec i d n] = calling W f [("b", VBlock i d [n])] [] (Returns (vec k d n))) /\
  (forall i r c,
    py W ld k (VFun "vsip.math.elementwise" f) [mat i d r c] = calling W f [("b", VBlock i d [r; c])] [] (Returns (mat k d r c))).
Proof.
  intros W ld k f d [[[-> | ->] Hf] | [[-> | ->] Hf]] Hl; cbn [block_module] in Hl; each_in Hf; (split; intros; by_running).
Qed.

Lemma binary_ok :
  forall W ld k f d,
  (is_real d /\ In f ["atan2"; "mul"]) \/ (is_complex d /\ In f ["mul"]) ->
  ld (block_module d) = true ->
  (forall i n j m,
    py W ld k (VFun "vsip.math.elementwise" f) [vec i d n; vec j d m] =
    calling W f [("b1", VBlock i d [n]); ("b2", VBlock j d [m])] [] (Returns (vec k d n))) /\
  (forall i r c j r' c',
    py W ld k (VFun "vsip.math.elementwise" f) [mat i d r c; mat j d r' c'] =
    calling W f [("b1", VBlock i d [r; c]); ("b2", VBlock j d [r'; c'])] [] (Returns (mat k d r c))).
Proof.
  intros W ld k f d [[[-> | ->] Hf] | [[-> | ->] Hf]] Hl; cbn [block_module] in Hl; each_in Hf; (split; intros; by_running).
Qed.

Lemma ternary_ok :
  forall W ld k f d,
  (is_real d /\ In f ["am"; "ite"]) \/ (is_complex d /\ In f ["am"]) ->
  ld (block_module d) = true ->
  (forall i n j m l p,
    py W ld k (VFun "vsip.math.elementwise" f) [vec i d n; vec j d m; vec l d p] =
    calling W f [("b1", VBlock i d [n]); ("b2", VBlock j d [m]); ("b3", VBlock l d [p])] [] (Returns (vec k d n))) /\
  (forall i r c j r' c' l r'' c'',
    py W ld k (VFun "vsip.math.elementwise" f) [mat i d r c; mat j d r' c'; mat l d r'' c''] =
    calling W f [("b1", VBlock i d [r; c]); ("b2", VBlock j d [r'; c']); ("b3", VBlock l d [r''; c''])] [] (Returns (mat k d r c))).
Proof.
  intros W ld k f d [[[-> | ->] Hf] | [[-> | ->] Hf]] Hl; cbn [block_module] in Hl; each_in Hf; (split; intros; by_running).
Qed.

Lemma other_result_type_ok :
  forall W ld k i d n,
  (is_real d -> ld (block_module (complex_over d)) = true ->
    py W ld k (VFun "vsip.math.elementwise" "euler") [vec i d n] =
    calling W "euler" [("b", VBlock i d [n])] [] (Returns (vec k (complex_over d) n))) /\
  (is_complex d -> ld (block_module (real_under d)) = true -> forall f, In f ["arg"; "magsq"] ->
    py W ld k (VFun "vsip.math.elementwise" f) [vec i d n] =
    calling W f [("b", VBlock i d [n])] [] (Returns (vec k (real_under d) n))) /\
  (is_real d \/ is_complex d -> ld (block_module B8) = true -> forall j m,
    py W ld k (VFun "vsip.math.elementwise" "eq") [vec i d n; vec j d m] =
    calling W "eq" [("b1", VBlock i d [n]); ("b2", VBlock j d [m])] [] (Returns (vec k B8 n))).
Proof.
  intros W ld k i d n; split; [|split].
  - intros [-> | ->] Hl; cbn [block_module complex_over] in Hl; by_running.
  - intros [-> | ->] Hl f Hf; cbn [block_module real_under] in Hl; each_in Hf; by_running.
  - intros [[-> | ->] | [-> | ->]] Hl j m; cbn [block_module] in Hl; by_running.
Qed.

Lemma result_type_bad :
  forall W ld k i d n,
  (is_real d -> ld (block_module (complex_over d)) = false ->
    py W ld k (VFun "vsip.math.elementwise" "euler") [vec i d n] =
    calling W "euler" [("b", VBlock i d [n])] [] (Raises "TypeError")) /\
  (is_complex d -> ld (block_module (real_under d)) = false -> forall f, In f ["arg"; "magsq"] ->
    py W ld k (VFun "vsip.math.elementwise" f) [vec i d n] =
    calling W f [("b", VBlock i d [n])] [] (Raises "TypeError")) /\
  (is_real d \/ is_complex d -> ld (block_module B8) = false -> forall j m,
    py W ld k (VFun "vsip.math.elementwise" "eq") [vec i d n; vec j d m] =
    calling W "eq" [("b1", VBlock i d [n]); ("b2", VBlock j d [m])] [] (Raises "TypeError")).
Proof.
  intros W ld k i d n; split; [|split].
  - intros [-> | ->] Hl; cbn [block_module complex_over] in Hl; by_running.
  - intros [-> | ->] Hl f Hf; cbn [block_module real_under] in Hl; each_in Hf; by_running.
  - intros [[-> | ->] | [-> | ->]] Hl j m; cbn [block_module] in Hl; by_running.
Qed.

Lemma mixed_types_rejected_ok :
  forall W ld k f i d n j d' m,
  In f ["atan2"; "eq"; "mul"] -> d <> d' ->
  py W ld k (VFun "vsip.math.elementwise" f) [vec i d n; vec j d' m] = Raises "ValueError" [].
Proof.
  intros W ld k f i d n j d' m Hf H; each_in Hf; destruct d, d'; try (exfalso; apply H; reflexivity); by_running.
Qed.

Lemma unexported_bad :
  forall W ld k i d n,
  (is_real d -> py W ld k (VFun "vsip.math.elementwise" "arg") [vec i d n] = Raises "AttributeError" []) /\
  (is_complex d -> forall f, In f ["acos"; "asin"; "atan"; "ceil"; "euler"; "exp10"; "floor"] ->
    py W ld k (VFun "vsip.math.elementwise" f) [vec i d n] = Raises "AttributeError" []).
Proof.
  intros W ld k i d n; split; [intros [-> | ->]; by_running | intros [-> | ->] f Hf; each_in Hf; by_running].
Qed.

Lemma ite_mask_bad :
  forall W ld k i n j d m l p,
  is_real d -> py W ld k (VFun "vsip.math.elementwise" "ite") [vec i B8 n; vec j d m; vec l d p] = Raises "ValueError" [].
Proof.
  intros W ld k i n j d m l p [-> | ->]; by_running.
Qed.

Lemma reductions_ok :
  forall W ld k d,
  is_real d ->
  (forall f i n, In f ["meanval"; "sumval"] ->
    py W ld k (VFun "vsip.math.reductions" f) [vec i d n] =
    calling W f [("b", VBlock i d [n])] [] (Returns (VNum (number_from W f [("b", VBlock i d [n])])))) /\
  (forall f i r c, In f ["meanval"; "sumval"] ->
    py W ld k (VFun "vsip.math.reductions" f) [mat i d r c] =
    calling W f [("b", VBlock i d [r; c])] [] (Returns (VNum (number_from W f [("b", VBlock i d [r; c])])))) /\
  (forall f i n, In f ["maxval"; "minval"] ->
    py W ld k (VFun "vsip.math.reductions" f) [vec i d n] =
    calling W f [("b", VBlock i d [n])] []
      (Returns (VTuple [VNum (number_from W f [("b", VBlock i d [n])]); VInt (index_from W f [("b", VBlock i d [n])])]))).
Proof.
  intros W ld k d [-> | ->]; (split; [|split]); intros f i; intros; match goal with H : In f _ |- _ => each_in H end; by_running.
Qed.

Lemma complex_reductions_bad :
  forall W ld k f i d n,
  In f ["meanval"; "sumval"] -> is_complex d -> py W ld k (VFun "vsip.math.reductions" f) [vec i d n] = Raises "ValueError" [].
Proof.
  intros W ld k f i d n Hf [-> | ->]; each_in Hf; by_running.
Qed.

Lemma dot_ok :
  forall W ld k i d n j m,
  (is_real d ->
    py W ld k (VFun "vsip.math.matvec" "dot") [vec i d n; vec j d m] =
    calling W "dot" [("b1", VBlock i d [n]); ("b2", VBlock j d [m])] []
      (Returns (VNum (number_from W "dot" [("b1", VBlock i d [n]); ("b2", VBlock j d [m])])))) /\
  (is_complex d ->
    py W ld k (VFun "vsip.math.matvec" "dot") [vec i d n; vec j d m] =
    calling W "dot" [("b1", VBlock i d [n]); ("b2", VBlock j d [m])] []
      (Returns (VCplx (number_from W "dot" [("b1", VBlock i d [n]); ("b2", VBlock j d [m])])))).
Proof.
  intros W ld k i d n j m; split; intros [-> | ->]; by_running.
Qed.

Lemma transposes_ok :
  forall W ld k f i d r c,
  (In f ["trans"] /\ (is_real d \/ is_complex d)) \/ (In f ["herm"] /\ is_complex d) -> ld (block_module d) = true ->
  py W ld k (VFun "vsip.math.matvec" f) [mat i d r c] =
  calling W f [("b", VBlock i d [r; c])] [] (fun h =>
  calling W "block_from_array" [("o", VArray k d [c; r])] h (Returns (mat (k + 1) d c r))).
Proof.
  intros W ld k f i d r c H Hl.
  assert (Hd : is_real d \/ is_complex d) by tauto.
  destruct H as [[Hf _] | [Hf Hc]]; each_in Hf.
  - destruct Hd as [[-> | ->] | [-> | ->]]; cbn [block_module] in Hl; by_running.
  - destruct Hc as [-> | ->]; cbn [block_module] in Hl; by_running.
Qed.

Lemma products_ok :
  forall W ld k d,
  is_real d \/ is_complex d -> ld (block_module d) = true ->
  (forall i r c j r' c',
    py W ld k (VFun "vsip.math.matvec" "prod") [mat i d r c; mat j d r' c'] =
    calling W "mmprod" [("a", VBlock i d [r; c]); ("b", VBlock j d [r'; c'])] [] (Returns (mat k d r c'))) /\
  (forall i r c j n,
    py W ld k (VFun "vsip.math.matvec" "prod") [mat i d r c; vec j d n] =
    calling W "mvprod" [("a", VBlock i d [r; c]); ("b", VBlock j d [n])] [] (Returns (vec k d r))) /\
  (forall i n j r c,
    py W ld k (VFun "vsip.math.matvec" "prod") [vec i d n; mat j d r c] =
    calling W "vmprod" [("a", VBlock i d [n]); ("b", VBlock j d [r; c])] [] (Returns (vec k d c))) /\
  (forall ax i n j r c, -2147483648 <= ax < 2147483648 ->
    py W ld k (VFun "vsip.math.matvec" "vmmul") [VInt ax; vec i d n; mat j d r c] =
    calling W "vmmul" [("axis", VInt ax); ("a", VBlock i d [n]); ("b", VBlock j d [r; c])] [] (Returns (mat k d r c))).
Proof.
  intros W ld k d [[-> | ->] | [-> | ->]] Hl; cbn [block_module] in Hl; repeat split; intros; by_running.
Qed.

Lemma matvec_missing_bad :
  forall W ld k d,
  is_real d \/ is_complex d ->
  (forall f x i n j m, In f ["kron"; "outer"] ->
    py W ld k (VFun "vsip.math.matvec" f) [VNum x; vec i d n; vec j d m] = Raises "AttributeError" []) /\
  (forall f i r c j r' c', In f ["prodh"; "prodj"; "prodt"] ->
    py W ld k (VFun "vsip.math.matvec" f) [mat i d r c; mat j d r' c'] = Raises "AttributeError" []).
Proof.
  intros W ld k d [[-> | ->] | [-> | ->]]; split; intros f; intros; match goal with H : In f _ |- _ => each_in H end; by_running.
Qed.

Lemma mixed_prod_bad :
  forall W ld k i d r c j d' r' c' n,
  d <> d' ->
  py W ld k (VFun "vsip.math.matvec" "prod") [mat i d r c; mat j d' r' c'] = Raises "NameError" [] /\
  py W ld k (VFun "vsip.math.matvec" "prod") [mat i d r c; vec j d' n] = Raises "NameError" [] /\
  py W ld k (VFun "vsip.math.matvec" "prod") [vec i d n; mat j d' r' c'] = Raises "NameError" [].
Proof.
  intros W ld k i d r c j d' r' c' n H; destruct d, d'; try (exfalso; apply H; reflexivity); repeat split; by_running.
Qed.

Lemma silent_none_bad :
  forall W ld k i d n j d' m r c x y,
  py W ld k (VFun "vsip.math.matvec" "cvjdot") [vec i d n; vec j d' m] = Returns VNone [] /\
  py W ld k (VFun "vsip.math.matvec" "cumsum") [vec i d n] = Returns VNone [] /\
  py W ld k (VFun "vsip.math.matvec" "gemp") [VNum x; mat i d r c; mat j d' r c; VNum y; mat i d r c] = Returns VNone [] /\
  py W ld k (VFun "vsip.math.matvec" "gems") [VNum x; mat i d r c; VNum y; mat j d' r c] = Returns VNone [] /\
  (d <> d' -> py W ld k (VFun "vsip.math.matvec" "outer") [VNum x; vec i d n; vec j d' m] = Returns VNone []) /\
  (d <> d' -> py W ld k (VFun "vsip.math.matvec" "vmmul") [VInt 0; vec i d n; mat j d' r c] = Returns VNone []).
Proof.
  intros W ld k i d n j d' m r c x y; (split; [by_running | split; [by_running | split; [by_running | split; [by_running | split]]]]);
  intros H; destruct d, d'; try (exfalso; apply H; reflexivity); by_running.
Qed.

Lemma llsqsol_ok :
  forall W ld k i r c j r' c' d,
  is_real d -> 0 <= c -> 0 <= c' ->
  py W ld k (VFun "vsip.math.solvers.llsqsol" "llsqsol") [mat i d r c; mat j d r' c'] =
  new_matrix W c c' (fun h =>
  calling W "llsqsol" [("a", VBlock i d [r; c]); ("b", VBlock j d [r'; c']); ("x", VBlock k d [c; c'])] h (Returns (mat k d c c'))).
Proof.
  intros W ld k i r c j r' c' d [-> | ->] H1 H2; by_running.
Qed.

Lemma covsol_toepsol_bad :
  forall W ld k i r c j r' c' d n m,
  py W ld k (VFun "vsip.math.solvers.covsol" "covsol") [mat i d r c; mat j d r' c'] = Raises "NameError" [] /\
  py W ld k (VFun "vsip.math.solvers.toepsol" "toepsol") [vec i d n; vec j d m] = Raises "NameError" [].
Proof.
  intros; split; by_running.
Qed.

Lemma lud_bad :
  forall W ld k t d n,
  is_real d -> names t d ->
  py W ld k (VClass "vsip.math.solvers.lud" "lud") [VType t; VInt n] = Raises "NameError" [] /\
  forall o op j r c, 0 <= r -> 0 <= c ->
    py W ld k (VMeth "vsip.math.solvers.lud" "lud" "solve" (VInst "vsip.math.solvers.lud" "lud" [("impl_", VObj "lud" d o)]))
      [VEnum "mat_op" op; mat j d r c] =
    new_matrix W r c (Raises "ArgumentError").
Proof.
  intros W ld k t d n [-> | ->] Ht; each_name Ht; split; intros; by_running.
Qed.

Lemma chold_bad :
  forall W ld k t d u n,
  is_real d -> names t d ->
  (forall v, v = VInt u \/ In v (map (fun ty => VEnum ty u)
      ["alg_hint"; "support_region"; "symmetry"; "bias"; "obj_state"; "mat_op"; "product_side"; "storage"]) ->
    py W ld k (VClass "vsip.math.solvers.chold" "chold") [VType t; v; VInt n] = Raises "ArgumentError" []).
Proof.
  intros W ld k t d u n [-> | ->] Ht v Hv; each_name Ht; (destruct Hv as [-> | Hv]; [by_running | cbn [map] in Hv; each_in Hv; by_running]).
Qed.

Lemma qrd_ok :
  forall W ld k t d r c st,
  is_real d -> names t d -> 0 <= r -> 0 <= c ->
  exists fields,
    let solver := VInst "vsip.math.solvers.qrd" "qrd" fields in
    let method f := VMeth "vsip.math.solvers.qrd" "qrd" f solver in
    py W ld k (VClass "vsip.math.solvers.qrd" "qrd") [VType t; VInt r; VInt c; VEnum "storage" st] =
    calling W "qrd" [("rows", VInt r); ("cols", VInt c); ("s", VEnum "storage" st)] [] (Returns solver) /\
    (forall ld' k' i ri ci,
      py W ld' k' (method "decompose") [mat i d ri ci] =
      asking W "qrd::decompose" [("self", VObj "qrd" d k); ("b", VBlock i d [ri; ci])] [] (Returns (VBool true)) (Returns (VBool false))) /\
    (forall ld' k' i ri ci, 0 <= ri -> 0 <= ci ->
      py W ld' k' (method "covsol") [mat i d ri ci] =
      new_matrix W ri ci (fun h =>
      asking W "qrd::covsol" [("self", VObj "qrd" d k); ("b", VBlock i d [ri; ci]); ("x", VBlock k' d [ri; ci])] h
        (Returns (mat k' d ri ci)) (Raises "ValueError"))) /\
    (forall ld' k' i ri ci, 0 <= ci ->
      py W ld' k' (method "lsqsol") [mat i d ri ci] =
      new_matrix W c ci (fun h =>
      asking W "qrd::lsqsol" [("self", VObj "qrd" d k); ("b", VBlock i d [ri; ci]); ("x", VBlock k' d [c; ci])] h
        (Returns (mat k' d c ci)) (Raises "ValueError"))).
Proof.
  intros W ld k t d r c st [-> | ->] Ht H1 H2; each_name Ht; eexists; cbv zeta; (split; [by_running | repeat split; intros; by_running]).
Qed.

Lemma qrd_prodq_ok :
  forall W ld k t d r c st op side,
  is_real d -> names t d -> 0 <= r -> 0 <= c ->
  st = 1 \/ st = 2 -> op = 0 \/ op = 1 \/ op = 2 -> side = 0 \/ side = 1 ->
  exists fields,
    let solver := VInst "vsip.math.solvers.qrd" "qrd" fields in
    py W ld k (VClass "vsip.math.solvers.qrd" "qrd") [VType t; VInt r; VInt c; VEnum "storage" st] =
    calling W "qrd" [("rows", VInt r); ("cols", VInt c); ("s", VEnum "storage" st)] [] (Returns solver) /\
    forall ld' k' i ri ci, 0 <= ri -> 0 <= ci ->
      let qr := r in let qc := if st =? 1 then c else r in
      let or := if op =? 0 then qr else qc in let oc := if op =? 0 then qc else qr in
      let xr := if side =? 0 then or else ri in let xc := if side =? 0 then ci else oc in
      py W ld' k' (VMeth "vsip.math.solvers.qrd" "qrd" "prodq" solver) [VEnum "mat_op" op; VEnum "product_side" side; mat i d ri ci] =
      new_matrix W xr xc (fun h =>
      asking W "qrd::prodq"
        [("self", VObj "qrd" d k); ("op", VEnum "mat_op" op); ("side", VEnum "product_side" side);
         ("b", VBlock i d [ri; ci]); ("x", VBlock k' d [xr; xc])] h
        (Returns (mat k' d xr xc)) (Raises "ValueError")).
Proof.
  intros W ld k t d r c st op side [-> | ->] Ht H1 H2 [-> | ->] [-> | [-> | ->]] [-> | ->]; each_name Ht; eexists; cbv zeta;
  (split; [by_running | intros; cbn [Z.eqb Pos.eqb]; by_running]).
Qed.

Lemma qrd_rsol_bad :
  forall W ld k d o st r c j rj cj x,
  is_real d -> 0 <= rj -> 0 <= cj ->
  py W ld k (VMeth "vsip.math.solvers.qrd" "qrd" "rsol"
      (VInst "vsip.math.solvers.qrd" "qrd"
        [("_rows", VInt r); ("_cols", VInt c); ("qstorage", VEnum "storage" st); ("impl_", VObj "qrd" d o)]))
    [mat j d rj cj; VNum x] =
  new_matrix W rj cj (Raises "ArgumentError").
Proof.
  intros W ld k d o st r c j rj cj x [-> | ->] H1 H2; by_running.
Qed.

Lemma svd_ok :
  forall W ld k t d r c us vs,
  is_real d -> names t d -> 0 <= r -> 0 <= c ->
  exists fields,
    let solver := VInst "vsip.math.solvers.svd" "svd" fields in
    let method f := VMeth "vsip.math.solvers.svd" "svd" f solver in
    py W ld k (VClass "vsip.math.solvers.svd" "svd") [VType t; VInt r; VInt c; VEnum "storage" us; VEnum "storage" vs] =
    calling W "svd" [("rows", VInt r); ("cols", VInt c); ("ust", VEnum "storage" us); ("vst", VEnum "storage" vs)] [] (Returns solver) /\
    (forall ld' k' i ri ci, 0 <= ri -> 0 <= ci ->
      py W ld' k' (method "decompose") [mat i d ri ci] =
      new_vector W (Z.min ri ci) (fun h =>
      asking W "svd::decompose" [("self", VObj "svd" d k); ("b", VBlock i d [ri; ci]); ("dest", VBlock k' d [Z.min ri ci])] h
        (Returns (vec k' d (Z.min ri ci))) (Raises "ValueError"))) /\
    (forall ld' k' low high, 0 <= low <= high ->
      py W ld' k' (method "u") [VInt low; VInt high] =
      new_matrix W r (high - low + 1) (fun h =>
      asking W "svd::u" [("self", VObj "svd" d k); ("low", VInt low); ("high", VInt high); ("dest", VBlock k' d [r; high - low + 1])] h
        (Returns (mat k' d r (high - low + 1))) (Raises "ValueError"))) /\
    (forall ld' k' low high, 0 <= low <= high ->
      py W ld' k' (method "v") [VInt low; VInt high] =
      new_matrix W c (high - low + 1) (fun h =>
      asking W "svd::v" [("self", VObj "svd" d k); ("low", VInt low); ("high", VInt high); ("dest", VBlock k' d [c; high - low + 1])] h
        (Returns (mat k' d c (high - low + 1))) (Raises "ValueError"))).
Proof.
  intros W ld k t d r c us vs [-> | ->] Ht H1 H2; each_name Ht; eexists; cbv zeta; (split; [by_running | repeat split; intros; by_running]).
Qed.

Lemma svd_produ_bad :
  forall W ld k f d o us vs t r c op side j rj cj,
  In f ["produ"; "prodv"] ->
  py W ld k (VMeth "vsip.math.solvers.svd" "svd" f
      (VInst "vsip.math.solvers.svd" "svd"
        [("dtype", VType t); ("_rows", VInt r); ("_cols", VInt c); ("ustorage", VEnum "storage" us); ("vstorage", VEnum "storage" vs);
         ("impl_", VObj "svd" d o)]))
    [VEnum "mat_op" op; VEnum "product_side" side; mat j d rj cj] = Raises "TypeError" [].
Proof.
  intros W ld k f d o us vs t r c op side j rj cj Hf; each_in Hf; by_running.
Qed.

Lemma conv_bad :
  forall W ld k t d s su i dec nn h,
  is_real d \/ d = C128 -> names t d ->
  py W ld k (VClass "vsip.signal.conv" "conv")
    [VType t; VEnum "symmetry" s; VEnum "support_region" su; VInt i; VInt dec; VInt nn; VEnum "alg_hint" h] = Raises "ArgumentError" [].
Proof.
  intros W ld k t d s su i dec nn h [[-> | ->] | ->] Ht; each_name Ht; by_running.
Qed.

Lemma corr_bad :
  forall W ld k t d su r i nn h,
  is_real d -> names t d ->
  py W ld k (VClass "vsip.signal.corr" "corr") [VType t; VEnum "support_region" su; VInt r; VInt i; VInt nn; VEnum "alg_hint" h] =
  Raises "ArgumentError" [].
Proof.
  intros W ld k t d su r i nn h [-> | ->] Ht; each_name Ht; by_running.
Qed.

Lemma complex_fft_corr_bad :
  forall W ld k t dir l s nn h su r i,
  names t C128 ->
  py W ld k (VClass "vsip.signal.fft" "fft") [VType t; VInt dir; VInt l; VNum s; VInt nn; VEnum "alg_hint" h] = Raises "TypeError" [] /\
  py W ld k (VClass "vsip.signal.corr" "corr") [VType t; VEnum "support_region" su; VInt r; VInt i; VInt nn; VEnum "alg_hint" h] =
  Raises "TypeError" [].
Proof.
  intros W ld k t dir l s nn h su r i Ht; each_name Ht; split; by_running.
Qed.

Lemma iir_bad :
  forall W ld k t d i j na ca nb cb l st nn h,
  is_real d -> names t d ->
  py W ld k (VClass "vsip.signal.iir" "iir")
    [VType t; mat i d na ca; mat j d nb cb; VInt l; VEnum "obj_state" st; VInt nn; VEnum "alg_hint" h] = Raises "ArgumentError" [].
Proof.
  intros W ld k t d i j na ca nb cb l st nn h [-> | ->] Ht; each_name Ht; by_running.
Qed.

Lemma freqswap_ok :
  forall W ld k d,
  is_real d ->
  (forall i n, 0 <= n ->
    py W ld k (VFun "vsip.signal.freqswap" "freqswap") [vec i d n] =
    new_vector W n (fun h => calling W "freqswap" [("in", VBlock i d [n]); ("out", VBlock k d [n])] h (Returns (vec k d n)))) /\
  (forall i r c, 0 <= r -> 0 <= c ->
    py W ld k (VFun "vsip.signal.freqswap" "freqswap") [mat i d r c] =
    new_matrix W r c (fun h => calling W "freqswap" [("in", VBlock i d [r; c]); ("out", VBlock k d [r; c])] h (Returns (mat k d r c)))).
Proof.
  intros W ld k d [-> | ->]; split; intros; by_running.
Qed.

Lemma windows_ok :
  forall W ld k t d n x,
  is_real d -> names t d -> 0 <= n ->
  (forall f, In f ["blackman"; "hanning"] ->
    py W ld k (VFun "vsip.signal.window" f) [VType t; VInt n] = calling W f [("len", VInt n)] [] (Returns (vec k d n))) /\
  py W ld k (VFun "vsip.signal.window" "cheby") [VType t; VInt n; VNum x] =
    calling W "cheby" [("len", VInt n); ("ripple", VNum x)] [] (Returns (vec k d n)) /\
  py W ld k (VFun "vsip.signal.window" "kaiser") [VType t; VInt n; VNum x] =
    calling W "kaiser" [("len", VInt n); ("beta", VNum x)] [] (Returns (vec k d n)).
Proof.
  intros W ld k t d n x [-> | ->] Ht H; each_name Ht; (split; [intros f Hf; each_in Hf; by_running | split; by_running]).
Qed.

Lemma clip_ok :
  forall W ld k d lt mt ut lc uc,
  is_real d ->
  (forall i n, 0 <= n ->
    py W ld k (VFun "vsip.selgen.clip" "clip") [vec i d n; VNum lt; VNum ut; VNum lc; VNum uc] =
    new_vector W n (fun h =>
    calling W "clip" [("bin", VBlock i d [n]); ("bout", VBlock k d [n]); ("lt", VNum lt); ("ut", VNum ut); ("lc", VNum lc); ("uc", VNum uc)] h
      (Returns (vec k d n)))) /\
  (forall i r c, 0 <= r -> 0 <= c ->
    py W ld k (VFun "vsip.selgen.clip" "clip") [mat i d r c; VNum lt; VNum ut; VNum lc; VNum uc] =
    new_matrix W r c (fun h =>
    calling W "clip" [("bin", VBlock i d [r; c]); ("bout", VBlock k d [r; c]); ("lt", VNum lt); ("ut", VNum ut); ("lc", VNum lc); ("uc", VNum uc)] h
      (Returns (mat k d r c)))) /\
  (forall i n, 0 <= n ->
    py W ld k (VFun "vsip.selgen.clip" "invclip") [vec i d n; VNum lt; VNum mt; VNum ut; VNum lc; VNum uc] =
    new_vector W n (fun h =>
    calling W "invclip" [("bin", VBlock i d [n]); ("bout", VBlock k d [n]); ("lt", VNum lt); ("mt", VNum mt); ("ut", VNum ut);
                         ("lc", VNum lc); ("uc", VNum uc)] h
      (Returns (vec k d n)))) /\
  (forall i r c, 0 <= r -> 0 <= c ->
    py W ld k (VFun "vsip.selgen.clip" "invclip") [mat i d r c; VNum lt; VNum mt; VNum ut; VNum lc; VNum uc] =
    new_matrix W r c (fun h =>
    calling W "invclip" [("bin", VBlock i d [r; c]); ("bout", VBlock k d [r; c]); ("lt", VNum lt); ("mt", VNum mt); ("ut", VNum ut);
                         ("lc", VNum lc); ("uc", VNum uc)] h
      (Returns (mat k d r c)))).
Proof.
  intros W ld k d lt mt ut lc uc [-> | ->]; repeat split; intros; by_running.
Qed.

Lemma rand_ok :
  forall W ld k t d seed p,
  is_real d \/ d = C128 -> names t d -> 0 <= seed ->
  exists fields,
    let generator := VInst "vsip.random" "rand" fields in
    py W ld k (VClass "vsip.random" "rand") [VType t; VInt seed; VBool p] =
      calling W "rand" [("seed", VInt seed); ("portable", VBool p)] [] (Returns generator) /\
    py W ld k (VClass "vsip.random" "rand") [VType t] =
      calling W "rand" [("seed", VInt 0); ("portable", VBool false)] [] (Returns generator) /\
    (forall ld' k' f, In f [("randu", "rand::randu"); ("randn", "rand::randn")] -> ld' (block_module d) = true ->
      let draw := py W ld' k' (VMeth "vsip.random" "rand" (fst f) generator) in
      let self := ("self", VObj "rand" d k) in
      draw [] = calling W (snd f) [self] []
        (Returns (match d with C128 => VCplx | _ => VNum end (number_from W (snd f) [self]))) /\
      (forall n, 0 <= n -> draw [VInt n] = calling W (snd f) [self; ("l", VInt n)] [] (Returns (vec k' d n))) /\
      (forall r c, 0 <= r -> 0 <= c ->
        draw [VInt r; VInt c] = calling W (snd f) [self; ("r", VInt r); ("c", VInt c)] [] (Returns (mat k' d r c)))).
Proof.
  intros W ld k t d seed p [[-> | ->] | ->] Ht H; each_name Ht; eexists; cbv zeta; cbn [block_module];
  (split; [by_running | split; [by_running | intros ld' k' f Hf Hl; each_in Hf; cbn [fst snd]; repeat split; intros; by_running]]).
Qed.

Lemma other_types_bad :
  forall W ld k i n x,
  py W ld k (VFun "vsip.selgen.clip" "clip") [vec i C128 n; VCplx x; VCplx x; VCplx x; VCplx x] = Raises "AttributeError" [] /\
  py W ld k (VFun "vsip.signal.window" "hanning") [VType TyComplex; VInt n] = Raises "AttributeError" [] /\
  py W ld k (VClass "vsip.random" "rand") [VType (NpType C64); VInt n] = Raises "AttributeError" [].
Proof.
  intros; repeat split; by_running.
Qed.

Lemma bool_slices_bad :
  forall W ld k i n m,
  py W ld k (VMeth "vsip.vector" "vector" "__getitem__" (vec i B8 n)) [VSlice m] = Raises "ValueError" [].
Proof.
  intros; by_running.
Qed.

Lemma slices_ok :
  forall W ld k i d n m,
  is_real d \/ is_complex d \/ d = I32 ->
  py W ld k (VMeth "vsip.vector" "vector" "__getitem__" (vec i d n)) [VSlice m] =
  calling W "subblock1" [("b", VBlock i d [n]); ("s", VSlice m)] [] (Returns (vec k d m)).
Proof.
  intros W ld k i d n m [[-> | ->] | [[-> | ->] | ->]]; by_running.
Qed.
