(** Properties C42, C43 and C47: random number generators. *)
From Coq Require Import ZArith QArith List Lia Bool Arith SpecFloat.
From Verif Require Import Base Random RandomProofs.
Import ListNotations.
Local Open Scope Z_scope.

(** C42, non-portable generator: generator [id] of [k] with one seed gives
    every k-th number of the sequence of the single generator with that seed. *)
Theorem C42_leapfrog seed k : (0 < k)%nat -> Z.of_nat k < 2 ^ 32 ->
  exists single, make false seed 1 1 = Some single /\
  forall id, (0 < id)%nat -> Z.of_nat id < 2 ^ 32 ->
  exists g, make false seed (Z.of_nat k) (Z.of_nat id) = Some g /\
  forall j, output g j = output single (id + (j + 1) * k - 2).
Proof. exact (leapfrog seed k). Qed.
(** The positions taken by generators 1..k are a partition of all positions
    from k-1 on. *)
Theorem C42_leapfrog_partition k i : (0 < k)%nat -> (k - 1 <= i)%nat ->
  (exists id j, (0 < id <= k)%nat /\ i = (id + (j + 1) * k - 2)%nat) /\
  (forall id j id' j', (0 < id <= k)%nat -> (0 < id' <= k)%nat -> i = (id + (j + 1) * k - 2)%nat -> i = (id' + (j' + 1) * k - 2)%nat -> id = id' /\ j = j').
Proof.
  intros Hk Hi. split; [exact (cover k i Hk Hi)|]. intros id j id' j' H H' E E'. apply (cover_unique k); auto. congruence.
Qed.
(** The single sequence has full period: two positions give the same number
    exactly when they differ by a multiple of 2^32. *)
Theorem C42_full_period seed single : make false seed 1 1 = Some single ->
  forall i j, output single i = output single j <-> Z.of_nat i mod 2 ^ 32 = Z.of_nat j mod 2 ^ 32.
Proof. exact (single_distinct seed single). Qed.
(** So different generators of one family give different numbers, as long as
    the position stays within the period. *)
Theorem C42_streams_disjoint seed k id id' g g' j j' : (0 < k)%nat -> Z.of_nat k < 2 ^ 32 ->
  (0 < id <= k)%nat -> (0 < id' <= k)%nat -> id <> id' ->
  make false seed (Z.of_nat k) (Z.of_nat id) = Some g -> make false seed (Z.of_nat k) (Z.of_nat id') = Some g' ->
  Z.of_nat (id + (j + 1) * k) < 2 ^ 32 -> Z.of_nat (id' + (j' + 1) * k) < 2 ^ 32 ->
  output g j <> output g' j'.
Proof.
  intros Hk HW Hi Hi' Ne E E' B B'. destruct (leapfrog seed k Hk HW) as (s & Es & F).
  destruct (F id ltac:(lia) ltac:(unfold W32; lia)) as (g0 & E0 & O). assert (g0 = g) by congruence. subst g0.
  destruct (F id' ltac:(lia) ltac:(unfold W32; lia)) as (g0 & E0' & O'). assert (g0 = g') by congruence. subst g0.
  rewrite O, O'. intros H. apply (single_distinct seed s Es) in H. rewrite !Z.mod_small in H by (unfold W32; lia).
  apply Nat2Z.inj in H. destruct (cover_unique k _ _ _ _ Hi Hi' H). contradiction.
Qed.
(** The first k-1 numbers of the single sequence belong to none of the k
    generators: together they are not the whole single-processor sequence. *)
Theorem C42_first_numbers_refuted seed k : (1 < k)%nat -> Z.of_nat k < 2 ^ 32 ->
  exists single, make false seed 1 1 = Some single /\
  forall id g j, (0 < id <= k)%nat -> make false seed (Z.of_nat k) (Z.of_nat id) = Some g ->
  Z.of_nat (id + (j + 1) * k) < 2 ^ 32 -> forall i, (i < k - 1)%nat -> output g j <> output single i.
Proof.
  intros Hk HW. destruct (leapfrog seed k ltac:(lia) HW) as (s & Es & F). exists s. split; [exact Es|].
  intros id g j Hi E B i Hik. destruct (F id ltac:(lia) ltac:(unfold W32; lia)) as (g0 & E0 & O). assert (g0 = g) by congruence. subst g0.
  rewrite O. intros H. apply (single_distinct seed s Es) in H. rewrite !Z.mod_small in H by (unfold W32; lia).
  assert (k <= (j + 1) * k)%nat by (rewrite <- (Nat.mul_1_l k) at 1; apply Nat.mul_le_mono_r; lia). lia.
Qed.
Example C42_ex_leap : exists s g2 g3, make false 7 1 1 = Some s /\ make false 7 6 2 = Some g2 /\ make false 7 6 3 = Some g3 /\
  output g2 0 = output s 6 /\ output g2 1 = output s 12 /\ output g3 0 = output s 7 /\ output g3 0 <> output g2 0.
Proof. do 3 eexists. repeat split; vm_compute; congruence. Qed.

(** C42, portable generator: the state is the sequence of the seed, jumped
    ahead by (2^32-1)/k numbers per id, minus a second sequence that depends
    only on the id and the number of calls. *)
Theorem C42_portable seed k id : (0 < k)%nat -> Z.of_nat k < 2 ^ 32 -> (0 < id <= 100)%nat -> (id <= k)%nat ->
  exists g c, make true seed (Z.of_nat k) (Z.of_nat id) = Some g /\ nth_error primes (id - 1) = Some c /\
  forall j, X_ (after j g) = seq_x seed (Z.to_nat (4294967295 / Z.of_nat k) * (id - 1) + j) /\
    (X1_ (after j g), X2_ (after j g)) = seq_y c j /\
    output g j = unit_of ((seq_x seed (Z.to_nat (4294967295 / Z.of_nat k) * (id - 1) + S j) - (A1 * fst (seq_y c j) + c)) mod 2 ^ 32).
Proof. exact (portable_output seed k id). Qed.
(** Two portable generators of a family are never in the same first state
    while each has given fewer than (2^32-1)/k numbers. *)
Theorem C42_portable_disjoint seed k id id' g g' j j' : (0 < k)%nat -> Z.of_nat k < 2 ^ 32 ->
  (0 < id <= 100)%nat -> (id <= k)%nat -> (0 < id' <= 100)%nat -> (id' <= k)%nat -> id <> id' ->
  make true seed (Z.of_nat k) (Z.of_nat id) = Some g -> make true seed (Z.of_nat k) (Z.of_nat id') = Some g' ->
  Z.of_nat j < 4294967295 / Z.of_nat k -> Z.of_nat j' < 4294967295 / Z.of_nat k ->
  X_ (after j g) <> X_ (after j' g').
Proof. exact (portable_disjoint seed k id id' g g' j j'). Qed.
(** The adders of the second sequence are distinct odd numbers. *)
Theorem C42_adders : NoDup primes /\ forall c, In c primes -> Z.Odd c.
Proof.
  split; [|intros c H; apply Z.odd_spec; revert c H; apply Forall_forall; vm_compute; repeat constructor].
  assert (G : forall l : list Z, (fix nd l := match l with [] => true | x :: l => negb (existsb (Z.eqb x) l) && nd l end) l = true -> NoDup l).
  { induction l as [|x l IH]; intros H; constructor; apply andb_prop in H; destruct H as [H1 H2]; [|apply IH; exact H2].
    intros I. apply negb_true_iff in H1. assert (existsb (Z.eqb x) l = true) by (apply existsb_exists; exists x; split; [exact I|apply Z.eqb_refl]). congruence. }
  apply G. vm_compute. reflexivity.
Qed.
Example C42_ex_portable :
  (g1 <- make true 7 4 1 ;; g2 <- make true 7 4 2 ;; Some (Qeq_bool (output g1 0) (output g2 0), X_ g1 =? 7, X_ g2 =? 7, 4294967295 / 4)) = Some (false, true, false, 1073741823).
Proof. vm_compute. reflexivity. Qed.
(** The constructor does not check the number of processors: with zero the
    non-portable constructor does not return and the portable one divides by
    zero. *)
Theorem C42_zero_processors_refuted : (forall seed id, 0 < id < 2 ^ 32 -> make false seed 0 id = None) /\ (forall seed id, 1 < id -> make true seed 0 id = None).
Proof. exact (conj zero_procs zero_procs_portable). Qed.

(** C43: uniform numbers, in exact arithmetic, for every state. *)
Theorem C43_uniform_range g : (0 <= fst (randu g) < 1)%Q.
Proof. exact (randu_range g). Qed.
(** Normal numbers: twelve uniform numbers, less six. *)
Theorem C43_normal g : let s := qsum (output g) 12 in
  randn g = ((if portable_ g then 6 - s else s - 6)%Q, after 12 g) /\ (- (6) <= fst (randn g) <= 6)%Q /\ (portable_ g = false -> fst (randn g) < 6)%Q /\ (portable_ g = true -> - (6) < fst (randn g))%Q.
Proof.
  cbv zeta. split; [exact (randn_ok g)|]. rewrite randn_ok. cbn [fst].
  destruct (qsum_range (output g) 12 (fun i => randu_range _)) as [L U]. specialize (U ltac:(lia)). change (inject_Z (Z.of_nat 12)) with 12%Q in U.
  destruct (portable_ g); repeat split; intros; try discriminate; Lqa.lra.
Qed.
Theorem C43_normal_complex g : let t1 := qsum (output g) 3 in let t2 := qsum (fun i => output g (3 + i)) 3 in
  randn_complex g = ((3 - t2 - t1, t1 - t2)%Q, after 6 g) /\
  (- (3) < fst (fst (randn_complex g)) <= 3)%Q /\ (- (3) < snd (fst (randn_complex g)) < 3)%Q.
Proof.
  cbv zeta. split; [exact (randn_complex_ok g)|]. rewrite randn_complex_ok. cbn [fst snd].
  destruct (qsum_range (output g) 3 (fun i => randu_range _)) as [L U]. specialize (U ltac:(lia)). change (inject_Z (Z.of_nat 3)) with 3%Q in U.
  destruct (qsum_range (fun i => output g (3 + i)) 3 (fun i => randu_range _)) as [L' U']. specialize (U' ltac:(lia)). change (inject_Z (Z.of_nat 3)) with 3%Q in U'.
  repeat split; Lqa.lra.
Qed.
Theorem C43_uniform_complex g : randu_complex g = ((output g 0, output g 1), after 2 g) /\
  (0 <= fst (fst (randu_complex g)) < 1)%Q /\ (0 <= snd (fst (randu_complex g)) < 1)%Q.
Proof.
  assert (E : randu_complex g = ((output g 0, output g 1), after 2 g)).
  { unfold randu_complex, output. cbn [after]. destruct (randu g) as [x g1] eqn:E1. cbn [fst snd]. destruct (randu g1). reflexivity. }
  split; [exact E|]. rewrite E. cbn [fst snd]. split; apply randu_range.
Qed.
Example C43_ex : exists g, make true 99 1 1 = Some g /\ Qred (fst (randu g)) = (589311563 # 2147483648) /\ ~ (fst (randn g) == 0)%Q.
Proof. eexists. split; [vm_compute; reflexivity|]. split; [vm_compute; reflexivity|vm_compute; discriminate]. Qed.
(** In single precision the number one is returned: this seed's first number
    is 2^32-1, which rounds to 2^32. *)
Theorem C43_float_refuted : exists g, make false 2480864133 1 1 = Some g /\ float_unit (fst (draw g)) = S754_finite false 8388608 (-23).
Proof. eexists. split; [vm_compute; reflexivity|vm_compute; reflexivity]. Qed.

(** C47: assigning the vector returned by randu(n) to a vector stores the next
    n numbers of the generator, in order, and advances it by n. *)
Theorem C47_assign g n : assign_view {| length_ := n; rng := g |} = Some (map (output g) (seq 0 n), {| length_ := n; rng := after n g |}).
Proof. exact (assign_view_ok {| length_ := n; rng := g |}). Qed.
Example C47_ex : exists g l v, make true 5 1 1 = Some g /\ assign_view {| length_ := 3; rng := g |} = Some (l, v) /\ length l = 3%nat /\ NoDup l.
Proof. do 3 eexists. split; [vm_compute; reflexivity|]. split; [vm_compute; reflexivity|]. split; [reflexivity|]. repeat constructor; cbn; intros H; repeat destruct H as [H|H]; try discriminate; contradiction. Qed.
(** But the vector itself is not a value: reading one element twice gives two
    different numbers, whatever the seed. *)
Theorem C47_constant_refuted seed n i : (i < n)%nat -> exists g v v' x x', make false seed 1 1 = Some g /\
  view_get {| length_ := n; rng := g |} i = Some (x, v) /\ view_get v i = Some (x', v') /\ x <> x'.
Proof.
  intros Hi. destruct (leapfrog seed 1 ltac:(lia) ltac:(reflexivity)) as (g & E & _). exists g.
  pose proof (single_distinct seed g E 0 1) as D.
  unfold view_get. cbn [length_ rng]. destruct (Nat.ltb_spec i n); [|lia]. cbn [bind].
  unfold output in D. cbn [after] in D. destruct (randu g) as [x g1] eqn:E1. cbn [fst snd] in D.
  exists {| length_ := n; rng := g1 |}. cbn [length_ rng]. destruct (Nat.ltb_spec i n); [|lia]. cbn [bind].
  destruct (randu g1) as [x' g2] eqn:E2. cbn [fst] in D. do 3 eexists. split; [exact E|]. split; [reflexivity|]. split; [reflexivity|].
  intros H'. apply D in H'. discriminate.
Qed.

Print Assumptions C42_leapfrog.
Print Assumptions C42_leapfrog_partition.
Print Assumptions C42_full_period.
Print Assumptions C42_streams_disjoint.
Print Assumptions C42_first_numbers_refuted.
Print Assumptions C42_portable.
Print Assumptions C42_portable_disjoint.
Print Assumptions C42_adders.
Print Assumptions C42_zero_processors_refuted.
Print Assumptions C43_uniform_range.
Print Assumptions C43_normal.
Print Assumptions C43_normal_complex.
Print Assumptions C43_uniform_complex.
Print Assumptions C43_float_refuted.
Print Assumptions C47_assign.
Print Assumptions C47_constant_refuted.
