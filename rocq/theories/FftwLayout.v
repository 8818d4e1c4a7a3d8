(** Lemmas about the FFTW backend: how blocks are accessed, and which layouts
    the plans and the buffers have. *)
From Coq Require Import ZArith List Bool Arith Lia.
From Verif Require Import Base Layout LayoutProofs Dft DftProofs Fftw FftwProofs.
Import ListNotations.
Local Open Scope nat_scope.

(** The dimension orders a backend asks for. *)
Inductive ord : nat -> order -> Prop :=
| ord1 : ord 1 [0] | ord2 : ord 2 [0; 1] | ord2t : ord 2 [1; 0]
| ord3 : ord 3 [0; 1; 2] | ord3t : ord 3 [0; 2; 1] | ord3r : ord 3 [2; 1; 0].
Definition perm (o : order) (i : list nat) : list nat := map (fun d => nth d i 0) o.
Definition rowmajor (ns : list nat) : list Z :=
  match ns with
  | [n] => [1%Z] | [a; b] => [Z.of_nat b; 1%Z] | [a; b; c] => [(Z.of_nat b * Z.of_nat c)%Z; Z.of_nat c; 1%Z] | _ => [] end.
Definition prod (ns : list nat) : Z := fold_right Z.mul 1%Z (zs ns).
Definition positive (ns : list nat) : Prop := Forall (fun n => 0 < n) ns.

Lemma list1 {A} (l : list A) : length l = 1 -> exists a, l = [a].
Proof. destruct l as [|a [|b l]]; try discriminate. eauto. Qed.
Lemma list2 {A} (l : list A) : length l = 2 -> exists a b, l = [a; b].
Proof. destruct l as [|a [|b [|c l]]]; try discriminate. eauto. Qed.
Lemma list3 {A} (l : list A) : length l = 3 -> exists a b c, l = [a; b; c].
Proof. destruct l as [|a [|b [|c [|d l]]]]; try discriminate. eauto. Qed.
Ltac lists := repeat match goal with
  | H : length ?l = 1 |- _ => is_var l; let a := fresh "u" in apply list1 in H as (a & ->)
  | H : length ?l = 2 |- _ => is_var l; let a := fresh "u" in let b := fresh "v" in apply list2 in H as (a & b & ->)
  | H : length ?l = 3 |- _ => is_var l; let a := fresh "u" in let b := fresh "v" in let c := fresh "w" in apply list3 in H as (a & b & c & ->)
  end.
Ltac fa := unfold ixs, positive in *; repeat match goal with
  | H : Forall _ (_ :: _) |- _ => inversion H; subst; clear H
  | H : Forall _ [] |- _ => clear H
  | H : Forall2 _ (_ :: _) (_ :: _) |- _ => inversion H; subst; clear H
  | H : Forall2 _ [] [] |- _ => clear H
  end.

Lemma perm_len D o i : ord D o -> length (perm o i) = D.
Proof. intros []; reflexivity. Qed.
Lemma perm_perm D o i : ord D o -> length i = D -> perm o (perm o i) = i.
Proof. intros [] L; lists; reflexivity. Qed.
Lemma perm_ixs D o ns i : ord D o -> length ns = D -> ixs ns i -> ixs (perm o ns) (perm o i).
Proof. intros O L H. pose proof (ixs_len _ _ H) as Li. rewrite L in Li. destruct O; lists; fa; unfold perm; cbn [map nth]; repeat constructor; assumption. Qed.
Lemma perm_ixs_inv D o ns i : ord D o -> length ns = D -> ixs (perm o ns) i -> ixs ns (perm o i).
Proof. intros O L H. rewrite <- (perm_perm D o ns O L). apply (perm_ixs D o _ i O (perm_len D o ns O) H). Qed.
Lemma perm_half D o A ns : 1 <= D <= 3 -> A < D -> o = axis_order D A -> length ns = D -> perm o (half_at A ns) = half_at (D - 1) (perm o ns).
Proof.
  intros HD LA -> L. destruct D as [|[|[|[|D]]]]; try lia; lists; destruct A as [|[|[|A]]]; try lia; reflexivity.
Qed.
Lemma axis_ord D A : 1 <= D <= 3 -> ord D (axis_order D A).
Proof.
  intros H. destruct D as [|[|[|[|D]]]]; try lia; cbn [axis_order].
  - constructor.
  - destruct (A =? 0); constructor.
  - destruct A as [|[|A]]; constructor.
Qed.
Lemma seq_ord D : 1 <= D <= 3 -> ord D (seq 0 D).
Proof. intros H. destruct D as [|[|[|[|D]]]]; try lia; constructor. Qed.
Lemma turn_perm D A ns : A < D -> length ns = D -> 1 <= D <= 3 -> turn A ns = perm (axis_order D A) ns.
Proof.
  intros LA L H. destruct D as [|[|[|[|D]]]]; try lia; lists; destruct A as [|[|[|A]]]; try lia; reflexivity.
Qed.
Lemma iosize_half D ns : length ns = D -> 1 <= D <= 3 -> iosize ns = half_at (D - 1) ns.
Proof. intros L H. destruct D as [|[|[|[|D]]]]; try lia; lists; reflexivity. Qed.
Lemma perm_seq D ns : length ns = D -> 1 <= D <= 3 -> perm (seq 0 D) ns = ns.
Proof. intros L H. destruct D as [|[|[|[|D]]]]; try lia; lists; reflexivity. Qed.
Lemma perm_prod D o ns : ord D o -> length ns = D -> prod (perm o ns) = prod ns.
Proof. intros [] L; lists; unfold prod, perm, zs; cbn [map nth fold_right]; ring. Qed.
Lemma perm_pos D o ns : ord D o -> length ns = D -> positive ns -> positive (perm o ns).
Proof. intros [] L P; lists; fa; unfold perm; cbn [map nth]; repeat constructor; assumption. Qed.
Lemma half_le n : 0 < n -> n / 2 + 1 <= n.
Proof. intros H. pose proof (Nat.div_mod n 2). pose proof (Nat.mod_upper_bound n 2). lia. Qed.
Lemma half_pos A ns : positive ns -> positive (half_at A ns).
Proof.
  unfold positive. rewrite !Forall_forall. intros H x I. unfold half_at in I. apply in_map_iff in I as (d & <- & I). apply in_seq in I.
  destruct (d =? A); [lia|]. apply H, nth_In. lia.
Qed.

(** Moving the axes around does not change a Fourier transform. *)
Section Turn.
  Context (R : CRing) (t : trig R).
  Add Ring Cc : (r_th (Cr R)).
  Lemma sum_mulr (f : nat -> Cr R) n c : (sum f n * c = sum (fun i => f i * c) n)%cr.
  Proof.
    transitivity (c * sum f n)%cr; [ring|]. rewrite <- (sum_mul_l (Cr R)). apply (sum_ext (Cr R)). intros. ring.
  Qed.
  Lemma turn2 e a b (x : list nat -> Cr R) k l :
    DFTs R t e [b; a] (fun i => x (perm [1; 0] i)) [l; k] = DFTs R t e [a; b] x [k; l].
  Proof.
    cbn [DFTs perm map nth].
    rewrite (sum_ext (Cr R) _ (fun i => sum (fun j => x [j; i] * sin_cos R t a (e * Z.of_nat j * Z.of_nat k)%Z * sin_cos R t b (e * Z.of_nat i * Z.of_nat l)%Z)%cr a) b)
      by (intros; apply sum_mulr).
    rewrite (sum_swap (Cr R)). apply (sum_ext (Cr R)). intros j J. rewrite sum_mulr. apply (sum_ext (Cr R)). intros i I. ring.
  Qed.
  Lemma DFTs_perm D o e ns x w : ord D o -> length ns = D -> length w = D ->
    DFTs R t e (perm o ns) (fun i => x (perm o i)) (perm o w) = DFTs R t e ns x w.
  Proof.
    intros O Ln Lw. destruct O.
    - lists. reflexivity.
    - lists. reflexivity.
    - apply list2 in Ln as (a & b & ->). apply list2 in Lw as (k & l & ->). exact (turn2 e a b x k l).
    - lists. reflexivity.
    - apply list3 in Ln as (a & b & c & ->). apply list3 in Lw as (k & l & h & ->).
      change (DFTs R t e [a; c; b] (fun i => x (perm [0; 2; 1] i)) [k; h; l] = DFTs R t e [a; b; c] x [k; l; h]).
      cbn [DFTs]. apply (sum_ext (Cr R)). intros j J. f_equal.
      exact (turn2 e b c (fun i => x (j :: i)) l h).
    - apply list3 in Ln as (a & b & c & ->). apply list3 in Lw as (k & l & h & ->).
      change (DFTs R t e [c; b; a] (fun i => x (perm [2; 1; 0] i)) [h; l; k] = DFTs R t e [a; b; c] x [k; l; h]).
      (* c b a -> c a b -> a c b -> a b c *)
      transitivity (DFTs R t e [c; a; b] (fun i => x (perm [1; 2; 0] i)) [h; k; l]).
      { cbn [DFTs]. apply (sum_ext (Cr R)). intros j J. f_equal.
        exact (turn2 e a b (fun i => x (perm [1; 2; 0] (j :: i))) k l). }
      transitivity (DFTs R t e [a; c; b] (fun i => x (perm [0; 2; 1] i)) [k; h; l]).
      { exact (turn2 e a c (fun i => DFTs R t e [b] (fun i' => x (perm [0; 2; 1] (i ++ i'))) [l]) k h). }
      cbn [DFTs]. apply (sum_ext (Cr R)). intros j J. f_equal.
      exact (turn2 e b c (fun i => x (j :: i)) l h).
  Qed.
  Lemma opposite_perm D o ns i : ord D o -> length ns = D -> length i = D -> opposite (perm o ns) (perm o i) = perm o (opposite ns i).
  Proof. intros [] Ln Li; lists; reflexivity. Qed.
  Lemma opposite_len ns : forall i, length i = length ns -> length (opposite ns i) = length ns.
  Proof. induction ns as [|n ns IH]; intros [|k i] H; try discriminate H; cbn; [reflexivity|]. rewrite IH; [reflexivity|]. cbn in H. congruence. Qed.
  Lemma hermitian_perm D o ns X : ord D o -> length ns = D -> hermitian R ns X -> hermitian R (perm o ns) (fun i => X (perm o i)).
  Proof.
    intros O L H i I. pose proof (ixs_len _ _ I) as Li. rewrite (perm_len D o ns O) in Li.
    pose proof (perm_ixs_inv D o ns i O L I) as I'. rewrite <- (H _ I').
    f_equal. rewrite <- (perm_perm D o i O Li) at 1.
    assert (Lp : length (perm o i) = D) by (apply perm_len, O).
    rewrite (opposite_perm D o ns (perm o i) O L Lp).
    apply (perm_perm D o _ O). rewrite opposite_len; [exact L|congruence].
  Qed.
End Turn.

(** ** Access to a block *)
Definition good (b : blk) (w : access) (buf : ptr) (N : Z) (force : bool) : Prop :=
  (ac_copy w = None /\ ac_ptr w = b_ptr b /\ ac_stride w = b_stride b /\ is_split (b_ptr b) = false /\ force = false) \/
  (exists a, ac_copy w = Some a /\ ac_ptr w = buf /\
    (forall i, ixs (b_size b) i -> index a (zs i) = Some (ats (ac_stride w) i) /\ 0 <= ats (ac_stride w) i < N)%Z /\
    (forall i j, ixs (b_size b) i -> ixs (b_size b) j -> ats (ac_stride w) i = ats (ac_stride w) j -> i = j)).

Lemma zs_range ns i : ixs ns i -> in_range (zs ns) (zs i).
Proof. unfold ixs, in_range, zs. induction 1 as [|k n i ns K H IH]; cbn [map]; constructor; [lia|exact IH]. Qed.
Lemma zs_inj i j : zs i = zs j -> i = j.
Proof. unfold zs. revert j. induction i as [|a i IH]; intros [|b j] H; try discriminate H; [reflexivity|]. cbn in H. injection H as H1 H2. f_equal; [lia|apply IH, H2]. Qed.
Lemma zs_pos ns : pos_ext (zs ns).
Proof. unfold pos_ext, zs. apply Forall_forall. intros z H. apply in_map_iff in H as (n & <- & _). lia. Qed.
Lemma zs_len ns : length (zs ns) = length ns.
Proof. apply map_length. Qed.
Lemma strides_ats a i : length i <= 3 -> dot_strides (stride a) 0 (zs i) = ats (strides a (length i)) i.
Proof.
  intros H. destruct i as [|x [|y [|z [|u i]]]]; cbn [length] in H; try lia; reflexivity.
Qed.
Lemma ord_valid D o : ord D o -> order_valid D o = true.
Proof. intros []; reflexivity. Qed.
Lemma ord_D D o : ord D o -> 1 <= D <= 3.
Proof. intros []; lia. Qed.

Lemma copy_facts l ns elem : ord (length ns) (rt_order l) -> (0 < elem)%Z -> rt_ok l elem ->
  exists a, make_rt l (zs ns) elem = Some a /\
    (forall i, ixs ns i -> index a (zs i) = Some (ats (strides a (length ns)) i) /\ 0 <= ats (strides a (length ns)) i < total_size a)%Z /\
    (forall i j, ixs ns i -> ixs ns j -> ats (strides a (length ns)) i = ats (strides a (length ns)) j -> i = j).
Proof.
  intros O E K. pose proof (ord_D _ _ O) as HD. apply ord_valid in O. rewrite <- zs_len in O.
  destruct (make_rt_own l (zs ns) elem O (zs_pos ns) E K) as (a & Ea & (Own & Inj) & _). exists a. split; [exact Ea|].
  assert (X : forall i, ixs ns i -> index a (zs i) = Some (ats (strides a (length ns)) i)).
  { intros i I. rewrite (make_rt_index l _ _ a (zs i) O (zs_pos ns) Ea (zs_range _ _ I)), <- (ixs_len _ _ I).
    rewrite strides_ats; [reflexivity|]. rewrite (ixs_len _ _ I). lia. }
  split.
  - intros i I. split; [apply X, I|]. destruct (Own _ (zs_range _ _ I)) as (o & Eo & Ro). rewrite (X i I) in Eo. injection Eo as ->. exact Ro.
  - intros i j I J H. apply zs_inj, Inj; [apply zs_range, I|apply zs_range, J|]. rewrite (X i I), (X j J), H. reflexivity.
Qed.

Section Open.
  Context (ssz AL : Z) (Hs : (0 < ssz)%Z).
  Lemma elem_pos q : (0 < elem_size ssz q)%Z.
  Proof. destruct q; unfold elem_size; lia. Qed.

  (** The strides of a dense layout. *)
  Lemma dense_strides fl o ns elem a : f_unaligned fl = true -> ord (length ns) o -> (0 < elem)%Z ->
    make_rt (rtl AL fl o) (zs ns) elem = Some a ->
    (forall i, length i = length ns -> ats (strides a (length ns)) i = ats (rowmajor (perm o ns)) (perm o i)) /\
    total_size a = prod ns.
  Proof.
    intros U O E. unfold make_rt, rtl. rewrite U. cbn [rt_packing rt_order rt_alignment]. rewrite zs_len.
    destruct (Z.eqb_spec elem 0) as [X|_]; [lia|]. cbn [negb is_aligned p_dense]. change (is_aligned 2) with false. cbn [negb orb].
    unfold rt_pad. cbn [rt_packing]. change (is_aligned p_dense) with false. cbn [andb].
    remember (length ns) as D eqn:L. symmetry in L.
    destruct O; lists; cbn [bind]; intros H; (injection H as <-; split; [intros i Li; lists; unfold strides, perm, prod, zs, dim_, at_; cbn; ring|unfold prod, zs, dim_, at_; cbn; ring]).
  Qed.

  Lemma rtl_ok fl o elem : (0 < AL)%Z -> (AL mod elem = 0)%Z -> rt_ok (rtl AL fl o) elem.
  Proof. intros P M. split; cbn [rtl rt_alignment]; [lia|auto]. Qed.
  Lemma rtl_dense_ok fl o elem : (0 < AL)%Z -> f_unaligned fl = true -> rt_ok (rtl AL fl o) elem.
  Proof. intros P U. split; cbn [rtl rt_alignment rt_packing]; [lia|]. rewrite U. discriminate. Qed.

  Ltac eqs := repeat match goal with
    | H : (_ && _ = true)%bool |- _ => apply Bool.andb_true_iff in H as [? ?]
    | H : (_ || _ = true)%bool |- _ => apply Bool.orb_true_iff in H as [H|H]
    | H : (_ =? _)%Z = true |- _ => apply Z.eqb_eq in H
    | H : (_ =? _) = true |- _ => apply Nat.eqb_eq in H end.
  (** Blocks that pass the test for a dense layout. *)
  Lemma compat_dense b fl o : f_unaligned fl = true -> ord (length (b_size b)) o -> length (b_stride b) = length (b_size b) ->
    rt_compatible ssz b (rtl AL fl o) = true ->
    is_split (b_ptr b) = false /\ forall i, ixs (b_size b) i -> ats (b_stride b) i = ats (rowmajor (perm o (b_size b))) (perm o i).
  Proof.
    intros U O L. unfold rt_compatible, rtl, sz, sd. rewrite U. cbn [rt_packing rt_order rt_alignment].
    destruct (is_split (b_ptr b)); [discriminate|]. destruct (forallb _ _) eqn:F; [|discriminate]. cbn [negb].
    change (p_dense =? 1)%Z with false. change (p_dense =? p_dense)%Z with true. cbv iota.
    intros H. split; [reflexivity|]. intros i I. rewrite forallb_forall in F.
    assert (F' : forall d, In d (seq 0 (length (b_size b))) -> dim_ (b_order b) d = dim_ o d) by (intros d Hd; apply Nat.eqb_eq, F, Hd). clear F.
    revert H F'. pose proof (ixs_len _ _ I) as Li. destruct b as [q bo ns ss dd]. cbn [b_ptr b_order b_size b_stride b_dda] in *.
    remember (length ns) as D eqn:Ln. symmetry in Ln. destruct O; cbn [seq]; intros H F'.
    all: try rewrite (F' 0) in H by (cbn; tauto); try rewrite (F' 1) in H by (cbn; tauto); try rewrite (F' 2) in H by (cbn; tauto).
    all: unfold dim_, at_, zs in H; cbn [nth] in H; lists; cbn [map nth] in H; fa; eqs; unfold perm; cbn [map nth rowmajor ats];
      repeat match goal with X : Z.of_nat ?n = 1%Z |- _ => assert (n = 1) by lia; clear X; subst n end;
      repeat match goal with X : ?k < 1 |- _ => assert (k = 0) by lia; clear X; subst k end; subst; try rewrite ?Z.mul_1_r; try lia; try nia.
  Qed.
  Lemma open_dense b fl o force buf : (0 < AL)%Z -> f_unaligned fl = true -> ord (length (b_size b)) o -> length (b_stride b) = length (b_size b) ->
    exists w, rt_open ssz b (rtl AL fl o) force buf = Some w /\ good b w buf (prod (b_size b)) force /\
      forall i, ixs (b_size b) i -> ats (ac_stride w) i = ats (rowmajor (perm o (b_size b))) (perm o i).
  Proof.
    intros A U O L. unfold rt_open. destruct (b_dda b && (negb force && rt_compatible ssz b (rtl AL fl o))) eqn:E.
    - apply Bool.andb_true_iff in E as [_ E]. apply Bool.andb_true_iff in E as [E1 E2]. apply Bool.negb_true_iff in E1.
      destruct (compat_dense b fl o U O L E2) as (S & X). eexists. split; [reflexivity|]. split; [left; cbn; auto|exact X].
    - assert (O' : ord (length (b_size b)) (rt_order (rtl AL fl o))) by exact O.
      destruct (copy_facts (rtl AL fl o) (b_size b) (elem_size ssz (b_ptr b)) O' (elem_pos _) (rtl_dense_ok fl o _ A U)) as (a & Ea & X & J).
      rewrite Ea. cbn [bind]. destruct (dense_strides fl o (b_size b) _ a U O (elem_pos _) Ea) as (Y & T).
      eexists. split; [reflexivity|]. cbn [ac_stride]. split; [right; exists a; cbn [ac_copy ac_ptr ac_stride]; rewrite <- T; auto|].
      intros i I. apply Y, ixs_len, I.
  Qed.

  (** Address arithmetic. *)
  Lemma address_padd q o : address ssz (padd q o) = (address ssz q + o * match q with Split _ _ => ssz | _ => elem_size ssz q end)%Z.
  Proof. destruct q; cbn [address padd elem_size]; ring. Qed.
  Lemma mod_down x a v : (0 < v -> 0 < a -> a mod v = 0 -> x mod a = 0 -> x mod v = 0)%Z.
  Proof.
    intros V A H1 H2. apply Z.mod_divide in H1; [|lia]. apply Z.mod_divide in H2; [|lia]. apply Z.mod_divide; [lia|].
    exact (Z.divide_trans _ _ _ H1 H2).
  Qed.
  Lemma mod_sum x y i v : (0 < v -> x mod v = 0 -> y mod v = 0 -> (x + i * y) mod v = 0)%Z.
  Proof.
    intros V H1 H2. apply Z.mod_divide in H1; [|lia]. apply Z.mod_divide in H2; [|lia]. apply Z.mod_divide; [lia|].
    apply Z.divide_add_r; [exact H1|]. apply Z.divide_mul_r, H2.
  Qed.
  Lemma elem_AL q va : config ssz AL va -> (AL mod elem_size ssz q = 0)%Z.
  Proof.
    intros (_ & A & _ & M & _). assert (X : (AL mod ssz = 0)%Z).
    { apply (mod_down AL (2 * ssz) ssz); try lia. rewrite Z.mul_comm, Z.mul_comm, Z.mod_mul; lia. }
    destruct q; unfold elem_size; assumption.
  Qed.

  (** One dimension, dense or aligned. *)
  Lemma open_1 va b fl n force buf : config ssz AL va -> b_size b = [n] -> length (b_stride b) = 1 ->
    exists w, rt_open ssz b (rtl AL fl [0]) force buf = Some w /\ good b w buf (Z.of_nat n) force /\
      (forall i, ixs [n] i -> ats (ac_stride w) i = ats [1%Z] i) /\
      (f_unaligned fl = false -> address ssz buf mod va = 0 -> address ssz (ac_ptr w) mod va = 0)%Z.
  Proof.
    intros C S L. pose proof (elem_AL (b_ptr b) va C) as M. destruct C as (_ & A & V & _ & AV & _).
    unfold rt_open. destruct (b_dda b && (negb force && rt_compatible ssz b (rtl AL fl [0]))) eqn:E.
    - apply Bool.andb_true_iff in E as [_ E]. apply Bool.andb_true_iff in E as [E1 E2]. apply Bool.negb_true_iff in E1.
      unfold rt_compatible, rtl, sd in E2. cbn [rt_packing rt_order rt_alignment] in E2. rewrite S in E2. cbn [length] in E2.
      apply list1 in L as (s & L). rewrite L in E2. unfold at_ in E2. cbn [nth] in E2.
      destruct (is_split (b_ptr b)) eqn:Sp; [discriminate|]. destruct (forallb _ _); [|discriminate]. cbn [negb] in E2.
      assert (X : s = 1%Z /\ (f_unaligned fl = false -> address ssz (b_ptr b) mod AL = 0)%Z).
      { destruct (f_unaligned fl).
        - change (p_dense =? 1)%Z with false in E2. change (p_dense =? p_dense)%Z with true in E2. cbv iota in E2. apply Z.eqb_eq in E2. split; [exact E2|discriminate].
        - change (p_aligned =? 1)%Z with false in E2. change (p_aligned =? p_dense)%Z with false in E2. change (is_aligned p_aligned) with true in E2. cbv iota in E2.
          destruct (Z.eqb_spec (address ssz (b_ptr b) mod AL) 0) as [Z0|]; [|discriminate]. cbn [negb] in E2. apply Z.eqb_eq in E2. auto. }
      destruct X as (X1 & X2). subst s. eexists. split; [reflexivity|]. cbn [ac_ptr ac_stride]. rewrite L.
      split; [left; cbn; rewrite L; auto|]. split; [reflexivity|]. intros U _. apply (mod_down _ AL va); auto.
    - assert (O' : ord (length (b_size b)) (rt_order (rtl AL fl [0]))) by (rewrite S; constructor).
      destruct (copy_facts (rtl AL fl [0]) (b_size b) (elem_size ssz (b_ptr b)) O' (elem_pos _) (rtl_ok fl [0] _ A M)) as (a & Ea & X & J).
      rewrite Ea. cbn [bind]. eexists. split; [reflexivity|]. cbn [ac_ptr ac_stride].
      assert (Es : strides a (length (b_size b)) = [1%Z] /\ total_size a = Z.of_nat n).
      { unfold make_rt in Ea. rewrite S in Ea. destruct (negb (elem_size ssz (b_ptr b) =? 0)%Z); [|discriminate Ea]. match type of Ea with (if ?c then _ else _) = _ => destruct c; [|discriminate Ea] end.
        cbn [zs map length] in Ea. injection Ea as <-. rewrite S. split; [reflexivity|]. unfold rtl, dim_, at_. cbn. lia. }
      destruct Es as (Es & T). split; [right; exists a; cbn [ac_copy ac_ptr ac_stride]; rewrite <- T; auto|]. rewrite Es. auto.
  Qed.

  (** Many transforms along one dimension of a matrix. *)
  Definition along (axis : nat) : order := if axis =? 0 then [1; 0] else [0; 1].
  Lemma open_2 va b fl axis buf n k N : config ssz AL va -> axis < 2 -> b_size b = line axis n k -> length (b_stride b) = 2 ->
    (forall t, (0 < k)%nat -> rt_pad (rtl AL fl (along axis)) (elem_size ssz (b_ptr b)) (Z.of_nat n) = Some t -> Z.of_nat (k - 1) * t + Z.of_nat n <= N)%Z ->
    exists w, rt_open ssz b (rtl AL fl (along axis)) false buf = Some w /\ good b w buf N false /\
      (forall i j, i < k -> j < n -> ats (ac_stride w) (line axis j i) = (off i (step axis (ac_stride w)) + Z.of_nat j)%Z) /\
      (f_unaligned fl = false -> address ssz buf mod va = 0 -> is_split buf = false -> elem_size ssz buf = elem_size ssz (b_ptr b) ->
         forall i, address ssz (padd (ac_ptr w) (off i (step axis (ac_stride w)))) mod va = 0)%Z.
  Proof.
    intros C HA S L B. pose proof (elem_AL (b_ptr b) va C) as M. destruct C as (_ & A & V & _ & AV & _).
    pose proof (elem_pos (b_ptr b)) as Ep.
    unfold rt_open. destruct (b_dda b && (negb false && rt_compatible ssz b (rtl AL fl (along axis)))) eqn:E.
    - apply Bool.andb_true_iff in E as [_ E]. cbn [negb andb] in E.
      unfold rt_compatible, sd, sz in E. rewrite S in E.
      apply list2 in L as (s & t & L). rewrite L in E.
      destruct (is_split (b_ptr b)) eqn:Sp; [discriminate|]. destruct (forallb _ _) eqn:F; [|discriminate]. cbn [negb] in E.
      rewrite forallb_forall in F.
      assert (Ll : length (line axis n k) = 2) by (unfold line; destruct (axis =? 0); reflexivity).
      assert (F' : forall d, d < 2 -> dim_ (b_order b) d = dim_ (along axis) d).
      { intros d Hd. apply Nat.eqb_eq, F, in_seq. rewrite Ll. lia. }
      rewrite Ll in E. rewrite (F' 0), (F' 1) in E by lia. unfold rtl in E. cbn [rt_packing rt_alignment] in E.
      assert (X : step axis [s; t] = (if axis =? 0 then t else s) /\ (if axis =? 0 then s else t) = 1%Z /\
                  (f_unaligned fl = false -> address ssz (b_ptr b) mod AL = 0 /\ (step axis [s; t] * elem_size ssz (b_ptr b)) mod AL = 0)%Z).
      { destruct axis as [|[|axis]]; [| |lia]; unfold line, along, at_, dim_, step in *; cbn [Nat.eqb nth zs map] in *; (split; [reflexivity|]);
          (destruct (f_unaligned fl);
           [change (p_dense =? 1)%Z with false in E; change (p_dense =? p_dense)%Z with true in E; cbv iota in E;
            apply Bool.andb_true_iff in E as [E _]; apply Z.eqb_eq in E; split; [exact E|discriminate]
           |change (p_aligned =? 1)%Z with false in E; change (p_aligned =? p_dense)%Z with false in E; change (is_aligned p_aligned) with true in E; cbv iota in E;
            match type of E with context [negb (?c =? 0)%Z] => destruct (Z.eqb_spec c 0) as [Z0|]; [|discriminate E] end; cbn [negb] in E;
            apply Bool.andb_true_iff in E as [E1 E2]; apply Z.eqb_eq in E1; apply Z.eqb_eq in E2; auto]). }
      destruct X as (X1 & X2 & X3). eexists. split; [reflexivity|]. cbn [ac_ptr ac_stride]. rewrite L.
      split; [left; cbn; rewrite L; auto|]. split.
      + intros i j _ _. rewrite X1. unfold line, off. destruct (axis =? 0); cbn [ats]; rewrite X2; ring.
      + intros U _ _ _ i. destruct (X3 U) as (Y1 & Y2). rewrite address_padd. unfold off.
        replace (match b_ptr b with Split _ _ => ssz | _ => elem_size ssz (b_ptr b) end) with (elem_size ssz (b_ptr b)) by (destruct (b_ptr b); [reflexivity|reflexivity|discriminate Sp|reflexivity]).
        rewrite <- Z.mul_assoc. apply mod_sum; [exact V|apply (mod_down _ AL va); auto|apply (mod_down _ AL va); auto].
    - clear E. set (e := elem_size ssz (b_ptr b)) in *.
      destruct (rt_pad_spec (rtl AL fl (along axis)) e (Z.of_nat n) Ep) as (t & Et & Ht & Hal & Hna).
      { lia. } { cbn; lia. } { cbn. intros. exact M. }
      assert (Ea : exists a, make_rt (rtl AL fl (along axis)) (zs (b_size b)) e = Some a /\ strides a 2 = (if axis =? 0 then [1%Z; t] else [t; 1%Z]) /\
                   forall i, ixs (b_size b) i -> index a (zs i) = Some (ats (strides a 2) i)).
      { assert (O' : ord (length (b_size b)) (rt_order (rtl AL fl (along axis)))) by (rewrite S; unfold line, along; destruct (axis =? 0); constructor).
        destruct (copy_facts (rtl AL fl (along axis)) (b_size b) e O' Ep (rtl_ok fl _ _ A M)) as (a & Ea & X & _).
        exists a. split; [exact Ea|]. rewrite S in X. replace (length (line axis n k)) with 2 in X by (unfold line; destruct (axis =? 0); reflexivity).
        split; [|rewrite S; intros i I; apply X, I].
        rewrite S in Ea. unfold make_rt in Ea. destruct (Z.eqb_spec e 0); [lia|]. cbn [negb] in Ea.
        match type of Ea with (if ?c then _ else _) = _ => destruct c; [|discriminate Ea] end.
        destruct axis as [|[|axis]]; [| |lia]; unfold line, along in *; cbn [Nat.eqb zs map length rtl rt_order dim_ nth at_] in *;
          rewrite Et in Ea; cbn [bind] in Ea; injection Ea as <-; reflexivity. }
      destruct Ea as (a & Ea & Sa & Xa). rewrite Ea. cbn [bind]. eexists. split; [reflexivity|].
      replace (length (b_size b)) with 2 in * by (rewrite S; unfold line; destruct (axis =? 0); reflexivity). rewrite Sa in *. cbn [ac_ptr ac_stride].
      assert (St : step axis (if axis =? 0 then [1%Z; t] else [t; 1%Z]) = t) by (destruct axis as [|[|axis]]; [reflexivity|reflexivity|lia]).
      assert (At : forall i j, ats (if axis =? 0 then [1%Z; t] else [t; 1%Z]) (line axis j i) = (Z.of_nat i * t + Z.of_nat j)%Z).
      { intros i j. unfold line. destruct (axis =? 0); cbn [ats]; ring. }
      assert (Ix : forall i, ixs (b_size b) i -> exists h j, i = line axis j h /\ h < k /\ j < n).
      { intros i I. pose proof (ixs_len _ _ I) as Li. rewrite S in I, Li. unfold line in *. destruct (axis =? 0); cbn [length] in Li; lists; fa; eauto 6. }
      rewrite St. split; [right; exists a; cbn [ac_copy ac_ptr ac_stride]; split; [reflexivity|]; split; [reflexivity|]; split|split].
      + intros i I. split; [apply Xa, I|]. destruct (Ix i I) as (h & j & -> & Hh & Hj). rewrite At.
        assert (K0 : 0 < k) by lia. specialize (B t K0 Et). nia.
      + intros i j I J. destruct (Ix i I) as (h & u & -> & Hh & Hu). destruct (Ix j J) as (h' & u' & -> & Hh' & Hu'). rewrite !At. intros X.
        destruct (pair_inj t (Z.of_nat h) (Z.of_nat u) (Z.of_nat h') (Z.of_nat u')) as (Y1 & Y2); [lia|lia|exact X|].
        assert (h = h') by lia. assert (u = u') by lia. subst. reflexivity.
      + intros i j _ _. rewrite At. unfold off. reflexivity.
      + intros U Ab Sb Eb i. rewrite address_padd.
        replace (match buf with Split _ _ => ssz | _ => elem_size ssz buf end) with e by (rewrite <- Eb; destruct buf; try discriminate Sb; reflexivity).
        unfold off. rewrite <- Z.mul_assoc. apply mod_sum; [exact V|exact Ab|]. apply (mod_down _ AL va); auto.
        cbn [rtl rt_packing rt_alignment] in Hal. rewrite U in Hal. apply Hal; [reflexivity|lia].
  Qed.
End Open.
