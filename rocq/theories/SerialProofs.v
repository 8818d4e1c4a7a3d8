(** Proofs about Serial.v. *)
From Coq Require Import ZArith List Lia Bool Arith.
From Verif Require Import Base Layout Serial.
From Verif Require LayoutProofs.
Import ListNotations.
Local Open Scope Z_scope.

Lemma assert_t {A} b (k : option A) : b = true -> (assert b ;; k) = k.
Proof. intros ->. reflexivity. Qed.

(** ** Types *)
Lemma code_match t t' D d : builtin t -> builtin t' -> d_type d = type_code t' -> type_check t D d = true -> t = t'.
Proof.
  intros B B' E H. unfold type_check in H. rewrite E in H.
  destruct t as [| | | | | |s u|c]; destruct t' as [| | | | | |s' u'|c']; cbn [builtin] in B, B'; try contradiction; try reflexivity;
    repeat match goal with H : In _ _ |- _ => cbn [In] in H; repeat destruct H as [<-|H]; try contradiction end;
    repeat match goal with u : bool |- _ => destruct u end; try reflexivity; vm_compute in H; discriminate.
Qed.
Lemma code_self t D d : builtin t -> d_type d = type_code t -> d_dims d = Z.of_nat D -> type_check t D d = true.
Proof.
  intros B E Ed. unfold type_check. rewrite E, Ed.
  destruct t as [| | | | | |s u|c]; cbn [builtin] in B; try contradiction;
    repeat match goal with H : In _ _ |- _ => cbn [In] in H; repeat destruct H as [<-|H]; try contradiction end;
    repeat match goal with u : bool |- _ => destruct u end; rewrite ?Z.eqb_refl; try reflexivity; vm_compute; reflexivity.
Qed.

(** ** Orders *)
Ltac orders o H := 
  unfold order_valid in H; repeat match type of H with context[match ?x with _ => _ end] => is_var x; destruct x; try discriminate H end.
Lemma u64_id z : 0 <= z < W64 -> u64 z = z.
Proof. intros. unfold u64. apply Z.mod_small. assumption. Qed.

Definition check_facts (D : nat) (o : order) (d : descriptor) : Prop :=
  let st := at_ (d_stride d) in let sz := at_ (d_size d) in
  match D with
  | 1%nat => st (dim_ o 0) = 1
  | 2%nat => st (dim_ o 1) = 1 /\ 0 <= st (dim_ o 0) /\ u64 (st (dim_ o 0)) = sz (dim_ o 1)
  | _ => st (dim_ o 2) = 1 /\ 0 <= st (dim_ o 0) /\ u64 (st (dim_ o 0)) = u64 (sz (dim_ o 2) * sz (dim_ o 1))
  end.
Lemma full_dim o k : (k < length o)%nat -> dim_ (full o) k = dim_ o k.
Proof. intros H. unfold dim_, full. apply app_nth1. exact H. Qed.
Lemma check_iff D o d : order_valid D o = true -> d_dims d = Z.of_nat D -> (order_check o d = true <-> check_facts D o d).
Proof.
  intros V E. unfold order_check. rewrite E.
  assert (L : length o = D /\ (1 <= D <= 3)%nat). { revert V. unfold order_valid. repeat (match goal with |- context[match ?x with _ => _ end] => is_var x; destruct x end; try discriminate); intros _; cbn; lia. }
  destruct L as [L1 L2]. destruct D as [|[|[|[|D]]]]; try lia; cbn [Z.of_nat Pos.of_succ_nat Pos.succ Z.eqb Pos.eqb andb check_facts]; cbv zeta; rewrite ?full_dim by lia.
  - destruct (Z.eqb_spec (at_ (d_stride d) (dim_ o 0)) 1); cbn [negb]; split; intros; congruence || discriminate || reflexivity.
  - destruct (Z.eqb_spec (at_ (d_stride d) (dim_ o 1)) 1); cbn [negb]; [|split; intros; [discriminate|tauto]].
    destruct (Z.ltb_spec (at_ (d_stride d) (dim_ o 0)) 0); cbn [orb]; [split; intros; [discriminate|lia]|].
    destruct (Z.eqb_spec (u64 (at_ (d_stride d) (dim_ o 0))) (at_ (d_size d) (dim_ o 1))); cbn [negb]; split; intros; try discriminate; try tauto; auto.
  - destruct (Z.eqb_spec (at_ (d_stride d) (dim_ o 2)) 1); cbn [negb]; [|split; intros; [discriminate|tauto]].
    destruct (Z.ltb_spec (at_ (d_stride d) (dim_ o 0)) 0); cbn [orb]; [split; intros; [discriminate|lia]|].
    match goal with |- context[Z.eqb ?a ?b] => destruct (Z.eqb_spec a b) end; cbn [negb]; split; intros; try discriminate; try tauto; auto.
Qed.

(** A descriptor as the functions fill it: three sizes and strides in the
    range of their types. *)
Definition wf_desc (D : nat) (d : descriptor) : Prop :=
  length (d_size d) = 3%nat /\ length (d_stride d) = 3%nat /\ d_dims d = Z.of_nat D /\
  Forall (fun n => 0 <= n < W64) (d_size d) /\ Forall (fun s => - H64 <= s < H64) (d_stride d).
Lemma F2_inv1 {A B} (R : A -> B -> Prop) i n : Forall2 R i [n] -> exists x, i = [x] /\ R x n.
Proof. intros H. inversion H as [|x ? l ? Hx Hl]; subst. inversion Hl; subst. eauto. Qed.
Lemma F2_inv2 {A B} (R : A -> B -> Prop) i n n' : Forall2 R i [n; n'] -> exists x y, i = [x; y] /\ R x n /\ R y n'.
Proof. intros H. inversion H as [|x ? l ? Hx Hl]; subst. apply F2_inv1 in Hl. destruct Hl as (y & -> & Hy). eauto 6. Qed.
Lemma F2_inv3 {A B} (R : A -> B -> Prop) i n n' n'' : Forall2 R i [n; n'; n''] -> exists x y z, i = [x; y; z] /\ R x n /\ R y n' /\ R z n''.
Proof. intros H. inversion H as [|x ? l ? Hx Hl]; subst. apply F2_inv2 in Hl. destruct Hl as (y & z & -> & Hy & Hz). eauto 8. Qed.
Lemma inb_true ext : forall i, in_range ext i -> inb ext i = true.
Proof.
  induction ext as [|n ext IH]; intros i H; inversion H as [|x ? l ? Hx Hl]; subst; cbn [inb]; [reflexivity|].
  rewrite (IH l) by exact Hl. rewrite !andb_true_iff, Z.leb_le, Z.ltb_lt. lia.
Qed.

Lemma W64_v : W64 = 18446744073709551616. Proof. reflexivity. Qed.
Lemma H64_v : H64 = 9223372036854775808. Proof. reflexivity. Qed.

Theorem reads_ok D o d : order_valid D o = true -> wf_desc D d -> order_check o d = true ->
  (D = 3%nat -> at_ (d_stride d) (dim_ o 1) = at_ (d_size d) (dim_ o 2) /\ at_ (d_size d) (dim_ o 2) * at_ (d_size d) (dim_ o 1) < W64) ->
  reads_described D o d.
Proof.
  intros V (L1 & L2 & E & F1 & F2) C X. apply (check_iff D o d V E) in C.
  destruct d as [ty dims fmt size strd sto]. cbn [d_size d_stride d_dims] in *.
  destruct size as [|n0 [|n1 [|n2 [|]]]]; try discriminate L1. destruct strd as [|s0 [|s1 [|s2 [|]]]]; try discriminate L2.
  assert (U : forall s, In s [s0; s1; s2] -> 0 <= s -> u64 s = s).
  { intros s Hs H0. rewrite Forall_forall in F2. specialize (F2 s Hs). apply u64_id. rewrite W64_v. rewrite H64_v in F2. lia. }
  assert (N : 0 <= n0 /\ 0 <= n1 /\ 0 <= n2) by (inversion F1 as [|? ? P1 Q1]; subst; inversion Q1 as [|? ? P2 Q2]; subst; inversion Q2 as [|? ? P3 Q3]; subst; lia).
  unfold reads_described, sizes_of. cbn [d_size].
  destruct D as [|[|[|[|D]]]]; try (cbn in V; discriminate).
  - orders o V. cbn [firstn]. eexists. split; [reflexivity|]. intros i Hi. cbn [index]. rewrite assert_t by (apply inb_true; exact Hi).
    apply F2_inv1 in Hi. destruct Hi as (x & -> & Hx). unfold described. cbn [d_stride dot_strides]. cbn in C. unfold at_; cbn [nth]. f_equal. unfold at_ in C. cbn in C. nia.
  - orders o V; cbn [firstn]; (eexists; split; [reflexivity|]); intros i Hi; cbn [index Nat.eqb dim_ nth]; rewrite assert_t by (apply inb_true; exact Hi);
      apply F2_inv2 in Hi; destruct Hi as (x & y & -> & Hx & Hy); unfold described; cbn [d_stride dot_strides]; cbn [check_facts dim_ nth] in C; unfold at_ in *; cbn [nth d_stride d_size] in *;
      destruct C as (C1 & C2 & C3); rewrite U in C3 by (cbn; auto); f_equal; nia.
  - orders o V; cbn [firstn]; (eexists; split; [reflexivity|]); intros i Hi; cbn [index Nat.eqb dim_ nth]; rewrite assert_t by (apply inb_true; exact Hi);
      apply F2_inv3 in Hi; destruct Hi as (x & y & z & -> & Hx & Hy & Hz); unfold described; cbn [d_stride dot_strides]; cbn [check_facts dim_ nth] in C, X; unfold at_ in *; cbn [nth d_stride d_size] in *;
      destruct C as (C1 & C2 & C3); destruct (X eq_refl) as (X1 & X2); rewrite U in C3 by (cbn; auto); rewrite u64_id in C3 by nia; f_equal; subst; ring.
Qed.

(** ** Descriptors of dense blocks *)
Lemma one_mul a b : 0 < a -> a = a * b -> b = 1.
Proof. intros H E. assert (Q : a * (b - 1) = 0) by lia. apply Z.mul_eq_0 in Q. lia. Qed.
Lemma mul_one a b : 0 <= a -> 0 <= b -> a * b = 1 -> a = 1 /\ b = 1.
Proof. intros A B H. destruct (Z.eq_mul_1 _ _ H); subst; lia. Qed.
(** Sizes and strides of the block fit their types. *)
Definition fits63 (l : applied) (ext : list Z) : Prop :=
  Forall (fun n => 0 <= n < H64) ext /\ (forall d, (d < length ext)%nat -> stride l d < H64) /\ fold_right Z.mul 1 ext < H64.
Ltac inv3 F := let P1 := fresh "P" in let Q1 := fresh "Q" in
  match type of F with
  | Forall _ (_ :: _) => inversion F as [|? ? P1 Q1]; subst; clear F; inv3 Q1
  | _ => clear F
  end.
Ltac ones := repeat match goal with
  | H : ?a * ?b = 1 |- _ => apply mul_one in H; [destruct H|lia|lia]
  | H : ?a = ?a * ?b |- _ => apply one_mul in H; [|lia]
  | H : ?a = ?b * ?a |- _ => rewrite (Z.mul_comm b a) in H; apply one_mul in H; [|lia]
  | H : ?x = 1 |- _ => is_var x; subst x
  | H : 1 = ?x |- _ => is_var x; subst x
  end.

Lemma user_check t fmt o ext l d : order_valid (length ext) o = true -> make_layout o P_dense ext = Some l -> fits63 l ext ->
  describe_user_storage t fmt o P_dense ext = Some d ->
  wf_desc (length ext) d /\ sizes_of (length ext) d = ext /\ d_type d = type_code t /\ order_check o d = true /\
  forall i, in_range ext i -> index l i = Some (described d i).
Proof.
  intros V M (F & S & _) H. unfold describe_user_storage in H. rewrite M in H. cbn [bind] in H. injection H as <-.
  destruct ext as [|n0 [|n1 [|n2 [|]]]]; try (cbn in V; discriminate); cbn [length] in *.
  - assert (G : make_layout o P_dense [n0] = Some (A1 n0 1)) by (orders o V; reflexivity). rewrite M in G. injection G as ->. inv3 F.
    split. { repeat split; cbn; repeat constructor; rewrite ?W64_v, ?H64_v in *; lia. }
    split; [reflexivity|]. split; [reflexivity|]. split. { apply (check_iff 1); [exact V|reflexivity|]. orders o V. reflexivity. }
    intros i Hi. cbn [index]. rewrite assert_t by (apply inb_true; exact Hi). apply F2_inv1 in Hi. destruct Hi as (x & -> & Hx). unfold described, at_. cbn. f_equal. ring.
  - inv3 F. pose proof (S 0%nat ltac:(lia)) as S0. pose proof (S 1%nat ltac:(lia)) as S1.
    assert (U : forall z, 0 <= z < H64 -> u64 z = z) by (intros z Hz; apply u64_id; rewrite ?W64_v, ?H64_v in *; lia).
    orders o V; cbn in M; injection M as <-; cbn [stride Nat.eqb] in S0, S1.
    all: split; [repeat split; cbn; repeat constructor; rewrite ?W64_v, ?H64_v in *; lia|].
    all: split; [reflexivity|]; split; [reflexivity|]; split.
    all: try (apply (check_iff 2); [reflexivity|reflexivity|]; cbn; unfold at_; cbn; rewrite U by lia; lia).
    all: intros i Hi; cbn [index]; rewrite assert_t by (apply inb_true; exact Hi); apply F2_inv2 in Hi; destruct Hi as (x & y & -> & Hx & Hy); unfold described, at_; cbn; f_equal; ring.
  - inv3 F. pose proof (S 0%nat ltac:(lia)) as S0. pose proof (S 1%nat ltac:(lia)) as S1. pose proof (S 2%nat ltac:(lia)) as S2.
    assert (U : forall z, 0 <= z < H64 -> u64 z = z) by (intros z Hz; apply u64_id; rewrite ?W64_v, ?H64_v in *; lia).
    assert (N01 : 0 <= n0 * n1) by nia. assert (N02 : 0 <= n0 * n2) by nia. assert (N12 : 0 <= n1 * n2) by nia.
    orders o V; cbn in M; injection M as <-; unfold at_ in *; cbn [stride dim_ at_ nth Nat.eqb] in S0, S1, S2.
    all: split; [repeat split; cbn; repeat constructor; rewrite ?W64_v, ?H64_v in *; lia|].
    all: split; [reflexivity|]; split; [reflexivity|]; split.
    all: try (apply (check_iff 3); [reflexivity|reflexivity|]; cbn; unfold at_; cbn; repeat split; try lia; f_equal; ring).
    all: intros i Hi; cbn [index]; rewrite assert_t by (apply inb_true; exact Hi); apply F2_inv3 in Hi; destruct Hi as (x & y & z & -> & Hx & Hy & Hz); unfold described, at_; cbn; f_equal; ring.
Qed.
Lemma prods a b c : 1 <= a -> 1 <= b -> 1 <= c -> a * (b * (c * 1)) < H64 -> 1 <= a * b < H64 /\ 1 <= a * c < H64 /\ 1 <= b * c < H64.
Proof.
  intros A B C T. assert (X : 1 <= a * b) by nia. assert (Y : 1 <= a * c) by nia. assert (Z : 1 <= b * c) by nia.
  assert (a * b * c < H64) by lia. split; [split; [assumption|nia]|]. split; [split; [assumption|]|split; [assumption|]].
  - assert (a * c * 1 <= a * c * b) by (apply Z.mul_le_mono_nonneg_l; lia). lia.
  - assert (b * c * 1 <= b * c * a) by (apply Z.mul_le_mono_nonneg_l; lia). lia.
Qed.
Lemma user_reads t fmt o ext l d o' : order_valid (length ext) o = true -> make_layout o P_dense ext = Some l -> fits63 l ext ->
  describe_user_storage t fmt o P_dense ext = Some d -> order_valid (length ext) o' = true -> order_check o' d = true ->
  reads_described (length ext) o' d.
Proof.
  intros V M FT H V' C. destruct (user_check t fmt o ext l d V M FT H) as (W & Sz & _).
  destruct (le_lt_dec (length ext) 2) as [L|L].
  { apply reads_ok; try assumption. intros E. lia. }
  apply (check_iff _ _ _ V' (proj1 (proj2 (proj2 W)))) in C. unfold reads_described. rewrite Sz.
  destruct FT as (F & _ & T). unfold describe_user_storage in H. rewrite M in H. cbn [bind] in H. injection H as <-.
  destruct ext as [|n0 [|n1 [|n2 [|]]]]; try (cbn in L; lia); cbn [length] in *; [|cbn in V; discriminate].
  clear W Sz L. assert (G : make_layout o' P_dense [n0; n1; n2] = Some (A3 o' [n0; n1; n2])). { unfold make_layout. cbn [length]. rewrite V'. reflexivity. }
  exists (A3 o' [n0; n1; n2]). split; [exact G|]. clear G. intros i Hi. cbn [index]. rewrite assert_t by (apply inb_true; exact Hi).
  apply F2_inv3 in Hi. destruct Hi as (x & y & z & -> & Hx & Hy & Hz). cbn [fold_right] in T.
  assert (B : 1 <= n0 * n1 < H64 /\ 1 <= n0 * n2 < H64 /\ 1 <= n1 * n2 < H64) by (apply (prods n0 n1 n2); lia).
  assert (U : forall z, 0 <= z < H64 -> u64 z = z) by (intros q Hq; apply u64_id; rewrite ?W64_v, ?H64_v in *; lia).
  inv3 F. clear T.
  orders o V; cbn in M; injection M as <-; orders o' V'; cbn in C; unfold at_ in C; cbn in C; destruct C as (C1 & C2 & C3);
    try (rewrite !U in C3 by (clear - B P P0 P1 Hx Hy Hz; lia)); clear U B; unfold described, at_; cbn; f_equal; try ring.
  all: ones; rewrite ?Z.mul_1_r, ?Z.mul_1_l in *; ones.
  all: nia.
Qed.
Lemma lin2 x y a b : 0 <= x < a -> 0 <= y < b -> 0 <= x * b + y < a * b.
Proof. intros. nia. Qed.
Lemma lin3 x y z a b c : 0 <= x < a -> 0 <= y < b -> 0 <= z < c -> 0 <= x * b * c + y * c + z < a * b * c.
Proof. intros Hx Hy Hz. pose proof (lin2 x y a b Hx Hy). pose proof (lin2 (x * b + y) z (a * b) c H Hz). lia. Qed.
Lemma dense_below o ext l i : order_valid (length ext) o = true -> make_layout o P_dense ext = Some l -> in_range ext i ->
  exists a, index l i = Some a /\ 0 <= a < fold_right Z.mul 1 ext.
Proof.
  intros V M Hi. pose proof (inb_true _ _ Hi) as B. destruct ext as [|n0 [|n1 [|n2 [|]]]]; try (cbn in V; discriminate); cbn [length] in *.
  - apply F2_inv1 in Hi. destruct Hi as (x & -> & Hx). orders o V. cbn in M. injection M as <-. cbn [index]. rewrite assert_t by exact B. eexists. split; [reflexivity|]. cbn. lia.
  - apply F2_inv2 in Hi. destruct Hi as (x & y & -> & Hx & Hy). orders o V; cbn in M; injection M as <-; cbn [index]; rewrite assert_t by exact B; (eexists; split; [reflexivity|]); cbn.
    + pose proof (lin2 x y n0 n1 Hx Hy). lia.
    + pose proof (lin2 y x n1 n0 Hy Hx). lia.
  - apply F2_inv3 in Hi. destruct Hi as (x & y & z & -> & Hx & Hy & Hz).
    pose proof (lin3 x y z n0 n1 n2 Hx Hy Hz). pose proof (lin3 x z y n0 n2 n1 Hx Hz Hy). pose proof (lin3 y x z n1 n0 n2 Hy Hx Hz).
    pose proof (lin3 y z x n1 n2 n0 Hy Hz Hx). pose proof (lin3 z x y n2 n0 n1 Hz Hx Hy). pose proof (lin3 z y x n2 n1 n0 Hz Hy Hx).
    orders o V; cbn in M; injection M as <-; cbn [index]; rewrite assert_t by exact B; (eexists; split; [reflexivity|]); cbn; lia.
Qed.
(** describe_data of dense data. *)
Lemma data_fields t fmt sizes strides sto old : length (d_size old) = 3%nat -> length (d_stride old) = 3%nat -> (1 <= length sizes <= 3)%nat -> length strides = length sizes ->
  let d := describe_data t fmt sizes strides sto old in
  d_type d = type_code t /\ d_dims d = Z.of_nat (length sizes) /\ d_storage d = sto /\ sizes_of (length sizes) d = sizes /\ firstn (length sizes) (d_stride d) = strides /\ length (d_size d) = 3%nat /\ length (d_stride d) = 3%nat.
Proof.
  intros L1 L2 L3 L4. cbv zeta. unfold describe_data, sizes_of. cbn [d_type d_dims d_storage d_size d_stride].
  destruct old as [? ? ? os ot ?]. cbn [d_size d_stride] in *.
  destruct os as [|? [|? [|? [|]]]]; try discriminate L1. destruct ot as [|? [|? [|? [|]]]]; try discriminate L2.
  destruct sizes as [|n0 [|n1 [|n2 [|]]]]; cbn [length] in *; try lia; destruct strides as [|t0 [|t1 [|t2 [|]]]]; try discriminate L4; cbn; auto 10.
Qed.
Lemma dot_firstn st : forall k i, dot_strides (at_ st) k i = dot_strides (at_ (firstn (k + length i) st)) k i.
Proof.
  intros k i. revert k. induction i as [|x i IH]; intros k; cbn [dot_strides length]; [reflexivity|]. f_equal.
  - f_equal. unfold at_. clear IH. revert k. induction st as [|s st IH]; intros [|k]; cbn; try reflexivity; try (rewrite <- IH; reflexivity).
  - rewrite IH. replace (S k + length i)%nat with (k + S (length i))%nat by lia. reflexivity.
Qed.

Lemma data_described t fmt sizes strides sto old i : length (d_size old) = 3%nat -> length (d_stride old) = 3%nat -> (1 <= length sizes <= 3)%nat -> length strides = length sizes -> length i = length sizes ->
  described (describe_data t fmt sizes strides sto old) i = dot_strides (at_ strides) 0 i.
Proof.
  intros L1 L2 L3 L4 L5. destruct (data_fields t fmt sizes strides sto old L1 L2 L3 L4) as (_ & _ & _ & _ & F & _). cbv zeta in F.
  unfold described. rewrite (dot_firstn _ 0 i). cbn [Nat.add]. rewrite L5, F. reflexivity.
Qed.
Lemma range_length ext i : in_range ext i -> length i = length ext.
Proof. intros H. induction H; cbn; congruence. Qed.
Lemma user_storage_size t fmt o p ext d : describe_user_storage t fmt o p ext = Some d -> d_storage d = if fmt =? array then fold_right Z.mul 1 ext else 2 * fold_right Z.mul 1 ext.
Proof. unfold describe_user_storage. destruct (make_layout o p ext); cbn [bind]; [|discriminate]. intros H. injection H as <-. cbn [d_storage]. destruct (fmt =? array); lia. Qed.
Lemma user_format t fmt o p ext d : describe_user_storage t fmt o p ext = Some d -> d_format d = fmt.
Proof. unfold describe_user_storage. destruct (make_layout o p ext); cbn [bind]; [|discriminate]. intros H. injection H as <-. reflexivity. Qed.

(** The full round trip, user storage. *)
Theorem user_round_trip t fmt o ext l d o' : builtin t -> order_valid (length ext) o = true -> make_layout o P_dense ext = Some l -> fits63 l ext ->
  describe_user_storage t fmt o P_dense ext = Some d ->
  is_compatible t (length ext) o d = true /\ sizes_of (length ext) d = ext /\ d_format d = fmt /\
  (forall i, in_range ext i -> index l i = Some (described d i) /\ 0 <= described d i < d_storage d) /\
  (order_valid (length ext) o' = true -> forall t', builtin t' -> is_compatible t' (length ext) o' d = true ->
     t' = t /\ exists l', make_layout o' P_dense ext = Some l' /\ forall i, in_range ext i -> index l' i = index l i).
Proof.
  intros B V M F H. destruct (user_check t fmt o ext l d V M F H) as (W & Sz & Ty & C & I).
  pose proof W as (_ & _ & Ed & _). split; [|split; [exact Sz|split; [exact (user_format _ _ _ _ _ _ H)|split]]].
  - unfold is_compatible. rewrite C, andb_true_r. apply code_self; assumption.
  - intros i Hi. split; [exact (I i Hi)|]. destruct (dense_below o ext l i V M Hi) as (a & Ea & Ba). rewrite (I i Hi) in Ea. injection Ea as ->.
    rewrite (user_storage_size _ _ _ _ _ _ H). destruct (fmt =? array); lia.
  - intros V' t' B' C'. unfold is_compatible in C'. apply andb_true_iff in C'. destruct C' as [C1 C2].
    split; [exact (code_match _ _ _ _ B' B Ty C1)|]. destruct (user_reads t fmt o ext l d o' V M F H V' C2) as (l' & M' & R').
    rewrite Sz in M', R'. exists l'. split; [exact M'|]. intros i Hi. rewrite (R' i Hi). symmetry. exact (I i Hi).
Qed.
Lemma not_integral_dims t D d : is_integral (type_code t) = false -> type_check t D d = true -> d_dims d = Z.of_nat D.
Proof. unfold type_check. intros ->. rewrite andb_true_iff, !Z.eqb_eq. lia. Qed.
Lemma dot_ext f g : forall i k, (forall j, (k <= j < k + length i)%nat -> f j = g j) -> dot_strides f k i = dot_strides g k i.
Proof.
  induction i as [|x i IH]; intros k H; cbn [dot_strides]; [reflexivity|]. rewrite (H k) by (cbn; lia).
  rewrite (IH (S k)); [reflexivity|]. intros j Hj. apply H. cbn. lia.
Qed.
Lemma direct_dense : forall (t : vtype) (fmt : Z) (o : order) (ext : list Z) (l : applied) (old : descriptor),
  length (d_size old) = 3%nat -> length (d_stride old) = 3%nat ->
  order_valid (length ext) o = true -> make_layout o P_dense ext = Some l ->
  let d := describe_direct t fmt ext (map (stride l) (seq 0 (length ext))) old in
  d_type d = type_code t /\ d_format d = fmt /\ sizes_of (length ext) d = ext /\ d_storage d = fold_right Z.mul 1 ext /\
  forall i, in_range ext i -> index l i = Some (described d i) /\ 0 <= described d i < d_storage d.
Proof.
  intros t fmt o ext l old L1 L2 V M d. set (strides := map (stride l) (seq 0 (length ext))) in *.
  assert (L4 : length strides = length ext) by (unfold strides; rewrite map_length, seq_length; reflexivity).
  assert (L3 : (1 <= length ext <= 3)%nat). { destruct ext as [|? [|? [|? [|]]]]; try (cbn in V; discriminate); cbn; lia. }
  destruct (data_fields t fmt ext strides (fold_right Z.mul 1 ext) old L1 L2 L3 L4) as (A & B & C & D & _).
  split; [exact A|]. split; [reflexivity|]. split; [exact D|]. split; [exact C|]. intros i Hi.
  assert (E : index l i = Some (described d i)).
  { unfold d, describe_direct. rewrite (data_described _ _ _ _ _ _ _ L1 L2 L3 L4 (range_length _ _ Hi)).
    rewrite (LayoutProofs.make_layout_index _ _ _ _ _ M Hi). f_equal. apply dot_ext. intros j Hj. unfold strides, at_.
    pose proof (range_length _ _ Hi) as Li. rewrite (nth_indep _ 0 (stride l 0%nat)) by (rewrite map_length, seq_length; lia).
    rewrite map_nth, seq_nth by lia. reflexivity. }
  split; [exact E|]. destruct (dense_below o ext l i V M Hi) as (a & Ea & Ha). rewrite E in Ea. injection Ea as <-. change (0 <= described d i < fold_right Z.mul 1 ext). exact Ha.
Qed.
