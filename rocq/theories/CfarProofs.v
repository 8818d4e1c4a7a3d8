From Coq Require Import ZArith List Bool Arith Lia Ring.
From Verif Require Import Base Cfar.
Import ListNotations.
Local Open Scope nat_scope.

(** * Loops *)
(** A loop whose state has a part that only depends on the iteration, up to a relation. *)
Lemma loop_part {X T} (B : nat -> X * T -> option (X * T)) (act : nat -> T -> option T) (Rel : nat -> X -> Prop) n : forall a s,
  (forall k s, a <= k < a + n -> Rel k s -> exists s', Rel (k + 1) s' /\ forall F, B k (s, F) = (F' <- act k F ;; Some (s', F'))) ->
  Rel a s -> exists s', Rel (a + n) s' /\ forall F, loop B a n (s, F) = (F' <- loop act a n F ;; Some (s', F')).
Proof.
  induction n; intros a s HB Hs.
  - exists s. rewrite Nat.add_0_r. split; [exact Hs | reflexivity].
  - destruct (HB a s) as (s1 & H1 & E1); [lia | exact Hs|].
    destruct (IHn (a + 1) s1) as (s2 & H2 & E2); [intros k s' Hk; apply HB; lia | exact H1|].
    exists s2. replace (a + S n) with (a + 1 + n) by lia. split; [exact H2|]. intros F. cbn [loop]. rewrite E1.
    destruct (act a F); [apply E2 | reflexivity].
Qed.
Lemma loop_rel {X} (f : nat -> X -> option X) (Rel : nat -> X -> Prop) n : forall a s,
  (forall k s, a <= k < a + n -> Rel k s -> exists s', f k s = Some s' /\ Rel (k + 1) s') ->
  Rel a s -> exists s', loop f a n s = Some s' /\ Rel (a + n) s'.
Proof.
  induction n; intros a s Hf Hs.
  - exists s. rewrite Nat.add_0_r. auto.
  - destruct (Hf a s) as (s1 & E1 & H1); [lia | exact Hs|].
    destruct (IHn (a + 1) s1) as (s2 & E2 & H2); [intros k s' Hk; apply Hf; lia | exact H1|].
    exists s2. replace (a + S n) with (a + 1 + n) by lia. cbn [loop]. rewrite E1. auto.
Qed.

(** * Window sums *)
Section Sums.
Context {R : CRing}.
Add Ring Rr : (@r_th R).
Variable p : nat -> R.
Variables N c g : nat.
Local Notation Pf := (sum p).
Definition W (k : nat) : R :=
  radd (rsub (Pf (Nat.min (k + g + c + 1) N)) (Pf (Nat.min (k + g + 1) N))) (rsub (Pf (k - g)) (Pf (k - g - c))).

Lemma sum_seq a n : fold_right radd r0 (map p (seq a n)) = rsub (Pf (a + n)) (Pf a).
Proof.
  revert a. induction n; intros a; cbn [seq map fold_right].
  - rewrite Nat.add_0_r. ring.
  - rewrite IHn. replace (S a + n) with (a + S n) by lia. cbn [sum]. ring.
Qed.
Lemma fold_app (l1 l2 : list R) : fold_right radd r0 (l1 ++ l2) = radd (fold_right radd r0 l1) (fold_right radd r0 l2).
Proof. induction l1; cbn; [ring|]. rewrite IHl1. ring. Qed.

Lemma W0 : g + c < N -> W 0 = rsub (Pf (g + 1 + c)) (Pf (g + 1)).
Proof.
  intros H. unfold W. rewrite !Nat.min_l by lia. cbn [Nat.sub Nat.add]. replace (g + c + 1) with (g + 1 + c) by lia. ring.
Qed.
Lemma W1 k : 1 <= k -> k <= g -> k + g + c < N -> W k = radd (W (k - 1)) (rsub (p (k + g + c)) (p (k + g))).
Proof.
  intros H1 H2 H3. unfold W. rewrite !Nat.min_l by lia.
  replace (k - 1 + g + c + 1) with (k + g + c) by lia. replace (k - 1 + g + 1) with (k + g) by lia.
  rewrite !Nat.add_1_r. cbn [sum]. replace (k - g) with 0 by lia. replace (k - 1 - g) with 0 by lia. cbn [Nat.sub]. ring.
Qed.
Lemma W2 k : g + 1 <= k -> k <= g + c -> k + g + c < N ->
  W k = radd (W (k - 1)) (radd (rsub (p (k + g + c)) (p (k + g))) (p (k - (g + 1)))).
Proof.
  intros H1 H2 H3. unfold W. rewrite !Nat.min_l by lia.
  replace (k - 1 + g + c + 1) with (k + g + c) by lia. replace (k - 1 + g + 1) with (k + g) by lia.
  rewrite !Nat.add_1_r. cbn [sum]. replace (k - g - c) with 0 by lia. replace (k - 1 - g - c) with 0 by lia.
  replace (k - g) with (S (k - S g)) by lia. replace (k - 1 - g) with (k - S g) by lia. cbn [sum]. ring.
Qed.
Lemma W3 k : g + c + 1 <= k -> k + g + c < N ->
  W k = radd (W (k - 1)) (rsub (radd (rsub (p (k + g + c)) (p (k + g))) (p (k - (g + 1)))) (p (k - (c + g + 1)))).
Proof.
  intros H1 H3. unfold W. rewrite !Nat.min_l by lia.
  replace (k - 1 + g + c + 1) with (k + g + c) by lia. replace (k - 1 + g + 1) with (k + g) by lia.
  rewrite !Nat.add_1_r. cbn [sum].
  replace (k - g) with (S (k - S g)) by lia. replace (k - 1 - g) with (k - S g) by lia.
  replace (S (k - S g) - c) with (S (k - S (c + g))) by lia. replace (k - S g - c) with (k - S (c + g)) by lia. cbn [sum]. ring.
Qed.
Lemma W4 k : g + c + 1 <= k -> N <= k + g + c -> k + g < N ->
  W k = radd (W (k - 1)) (rsub (radd (ropp (p (k + g))) (p (k - (g + 1)))) (p (k - (c + g + 1)))).
Proof.
  intros H1 H2 H3. unfold W. rewrite !(Nat.min_r (_ + _ + c + 1) N), !Nat.min_l by lia.
  replace (k - 1 + g + 1) with (k + g) by lia.
  rewrite !Nat.add_1_r. cbn [sum].
  replace (k - g) with (S (k - S g)) by lia. replace (k - 1 - g) with (k - S g) by lia.
  replace (S (k - S g) - c) with (S (k - S (c + g))) by lia. replace (k - S g - c) with (k - S (c + g)) by lia. cbn [sum]. ring.
Qed.
Lemma W5 k : g + c + 1 <= k -> N <= k + g ->
  W k = radd (W (k - 1)) (rsub (p (k - (g + 1))) (p (k - (c + g + 1)))).
Proof.
  intros H1 H2. unfold W. rewrite !Nat.min_r by lia. rewrite !Nat.add_1_r.
  replace (k - g) with (S (k - S g)) by lia. replace (k - 1 - g) with (k - S g) by lia.
  replace (S (k - S g) - c) with (S (k - S (c + g))) by lia. replace (k - S g - c) with (k - S (c + g)) by lia. cbn [sum]. ring.
Qed.
End Sums.

Lemma filter_all {A} (f : A -> bool) l : (forall x, In x l -> f x = true) -> filter f l = l.
Proof. induction l; intros H; [reflexivity|]. cbn. rewrite H by (left; reflexivity). f_equal. apply IHl. intros. apply H. right. assumption. Qed.
Lemma filter_none {A} (f : A -> bool) l : (forall x, In x l -> f x = false) -> filter f l = [].
Proof. induction l; intros H; [reflexivity|]. cbn. rewrite H by (left; reflexivity). apply IHl. intros. apply H. right. assumption. Qed.

Lemma near_segments N c g k : k < N ->
  near N c g k = seq (k - g - c) (k - g - (k - g - c)) ++ seq (Nat.min (k + g + 1) N) (Nat.min (k + g + c + 1) N - Nat.min (k + g + 1) N).
Proof.
  intros Hk. unfold near.
  set (a := k - g - c). set (b := k - g). set (d := Nat.min (k + g + 1) N). set (e := Nat.min (k + g + c + 1) N).
  assert (E : seq 0 N = seq 0 a ++ seq a (b - a) ++ seq b (d - b) ++ seq d (e - d) ++ seq e (N - e)).
  { replace N with (a + ((b - a) + ((d - b) + ((e - d) + (N - e))))) at 1 by lia.
    rewrite !seq_app. cbn [Nat.add]. replace (a + (b - a)) with b by lia. replace (b + (d - b)) with d by lia. replace (d + (e - d)) with e by lia. reflexivity. }
  rewrite E, !filter_app.
  assert (T : forall r, r < N -> (let x := if r <? k then k - r else r - k in (g <? x) && (x <=? g + c)) = ((a <=? r) && (r <? b)) || ((d <=? r) && (r <? e))).
  { intros r Hr. cbv zeta. apply eq_true_iff_eq. rewrite orb_true_iff, !andb_true_iff, !Nat.leb_le, !Nat.ltb_lt.
    destruct (Nat.ltb_spec r k); lia. }
  rewrite (filter_none _ (seq 0 a)), (filter_all _ (seq a (b - a))), (filter_none _ (seq b (d - b))), (filter_all _ (seq d (e - d))), (filter_none _ (seq e (N - e))).
  - rewrite app_nil_r. reflexivity.
  - intros r Hr. apply in_seq in Hr. rewrite T by lia. apply not_true_is_false. rewrite orb_true_iff, !andb_true_iff, !Nat.leb_le, !Nat.ltb_lt. lia.
  - intros r Hr. apply in_seq in Hr. rewrite T by lia. rewrite orb_true_iff, !andb_true_iff, !Nat.leb_le, !Nat.ltb_lt. lia.
  - intros r Hr. apply in_seq in Hr. rewrite T by lia. apply not_true_is_false. rewrite orb_true_iff, !andb_true_iff, !Nat.leb_le, !Nat.ltb_lt. lia.
  - intros r Hr. apply in_seq in Hr. rewrite T by lia. rewrite orb_true_iff, !andb_true_iff, !Nat.leb_le, !Nat.ltb_lt. lia.
  - intros r Hr. apply in_seq in Hr. rewrite T by lia. apply not_true_is_false. rewrite orb_true_iff, !andb_true_iff, !Nat.leb_le, !Nat.ltb_lt. lia.
Qed.
Lemma near_count N c g k : k < N ->
  length (near N c g k) = (k - g - (k - g - c)) + (Nat.min (k + g + c + 1) N - Nat.min (k + g + 1) N).
Proof. intros Hk. rewrite near_segments by exact Hk. rewrite app_length, !seq_length. reflexivity. Qed.

Section Kernels.
Context {R : CRing}.
Add Ring Rk : (@r_th R).
Variable hit : R -> R -> nat -> bool.
Variable cube : nat -> nat -> nat -> R.
Variables beams dbins gates c g columns : nat.
Hypothesis big : 2 * (c + g) < gates.

Definition sq (i j k : nat) : R := rmul (cube i j k) (cube i j k).
Definition Wd (i j k : nat) : R := W (sq i j) gates c g k.
Definition pre (i j k : nat) : R := match k with 0 => r0 | S k' => Wd i j k' end.
Definition taken (k : nat) : nat :=
  if k <? g + 1 then c else if k <? g + c + 1 then c + k - (g + 1) else if k + (g + c) <? gates then 2 * c
  else if k + g <? gates then c + gates - (k + g) else c.
Definition h (i j k : nat) : bool := hit (sq i j k) (Wd i j k) (taken k).
Definition act1 (i j k : nat) (F : found) : option found := if h i j k then put gates columns k (i, j) F else Some F.

Lemma pre_at i j k : 1 <= k -> pre i j k = Wd i j (k - 1).
Proof. intros H. destruct k; [lia|]. cbn [pre]. f_equal. lia. Qed.
Lemma pre_next i j k : pre i j (k + 1) = Wd i j k.
Proof. rewrite Nat.add_1_r. reflexivity. Qed.

Ltac tk := unfold taken; repeat match goal with |- context [?a <? ?b] => destruct (Nat.ltb_spec a b); try lia end.

Lemma taken0 k : k <= g -> taken k = c.
Proof. intros. tk. Qed.
Lemma taken2 k : g < k -> k <= g + c -> taken k = c + k - (g + 1).
Proof. intros. tk. Qed.
Lemma taken3 k : g + c < k -> k + (g + c) < gates -> taken k = 2 * c.
Proof. intros. tk. Qed.
Lemma taken4 k : gates <= k + (g + c) -> k + g < gates -> taken k = c + gates - (k + g).
Proof. intros. tk. Qed.
Lemma taken5 k : gates <= k + g -> taken k = c.
Proof. intros. tk. Qed.

Lemma loop_three {T} (f : nat -> T -> option T) t :
  loop f 0 gates t = (t <- loop f 0 (g + c + 1) t ;; t <- loop f (g + c + 1) (gates - (g + c) - (g + c + 1)) t ;; loop f (gates - (g + c)) (g + c) t).
Proof.
  replace (loop f 0 gates t) with (loop f 0 ((g + c + 1) + ((gates - (g + c) - (g + c + 1)) + (g + c))) t) by (f_equal; lia).
  rewrite loop_app. cbn [Nat.add]. destruct (loop f 0 (g + c + 1) t); [|reflexivity]. cbn [bind]. rewrite loop_app.
  destruct (loop f (g + c + 1) _ t0); [|reflexivity]. cbn [bind]. f_equal. lia.
Qed.

Section OneVector.
Variables i j : nat.
Hypothesis Hi : i < beams.
Hypothesis Hj : j < dbins.
Local Notation p := (fun k => option_map square (cell cube beams dbins gates i j k)).
Lemma p_some k : k < gates -> p k = Some (sq i j k).
Proof.
  intros Hk. cbv beta. unfold cell. rewrite (proj2 (Nat.ltb_lt _ _) Hi), (proj2 (Nat.ltb_lt _ _) Hj), (proj2 (Nat.ltb_lt _ _) Hk). reflexivity.
Qed.
Lemma test_act k used F : k < gates -> used = taken k ->
  test1 hit gates columns p (i, j) k used (Wd i j k, F) = (F' <- act1 i j k F ;; Some (Wd i j k, F')).
Proof.
  intros Hk ->. unfold test1. rewrite p_some by exact Hk. cbn [bind fst snd]. unfold act1. fold (h i j k).
  destruct (h i j k); reflexivity.
Qed.
Lemma init_sum : exists s, loop (fun lnd sum => x <- p (1 + lnd) ;; Some (radd sum x)) g c r0 = Some s /\ s = Wd i j 0.
Proof.
  destruct (loop_rel (fun lnd sum => x <- p (1 + lnd) ;; Some (radd sum x)) (fun k s => s = rsub (sum (sq i j) (k + 1)) (sum (sq i j) (g + 1))) c g r0) as (s & E & H).
  - intros k s Hk ->. rewrite p_some by lia. cbn [bind]. eexists. split; [reflexivity|]. rewrite !(Nat.add_1_r (k + 1)). cbn [sum Nat.add].
    rewrite (Nat.add_1_r k). ring.
  - ring.
  - exists s. split; [exact E|]. rewrite H. unfold Wd. rewrite W0 by lia. replace (g + c + 1) with (g + 1 + c) by lia. reflexivity.
Qed.

Lemma first_ok k s : k < g + c + 1 -> s = pre i j k ->
  exists s', s' = pre i j (k + 1) /\ forall F, first1 hit gates c g columns p (i, j) k (s, F) = (F' <- act1 i j k F ;; Some (s', F')).
Proof.
  intros Hk ->. exists (Wd i j k). split; [symmetry; apply pre_next|]. intros F. unfold first1.
  destruct (Nat.eqb_spec k 0) as [-> | H0].
  - cbn [fst snd pre]. destruct init_sum as (s & E & ->). rewrite E. cbn [bind]. apply test_act; [lia|]. rewrite taken0; lia.
  - rewrite pre_at by lia. cbn [fst snd]. destruct (Nat.ltb_spec k (g + 1)).
    + rewrite !p_some by lia. cbn [bind]. unfold Wd at 1. rewrite <- W1 by lia. apply test_act; [lia | rewrite taken0; lia].
    + rewrite !p_some by lia. cbn [bind]. unfold Wd at 1. rewrite <- W2 by lia. apply test_act; [lia | rewrite taken2; lia].
Qed.
Lemma middle_ok k s : g + c + 1 <= k -> k + (g + c) < gates -> s = pre i j k ->
  exists s', s' = pre i j (k + 1) /\ forall F, middle1 hit gates c g columns p (i, j) k (s, F) = (F' <- act1 i j k F ;; Some (s', F')).
Proof.
  intros H1 H2 ->. exists (Wd i j k). split; [symmetry; apply pre_next|]. intros F. unfold middle1.
  rewrite !p_some by lia. cbn [bind fst snd]. rewrite pre_at by lia. unfold Wd at 1. rewrite <- W3 by lia. apply test_act; [lia | rewrite taken3; lia].
Qed.
Lemma last_ok k s : gates - (g + c) <= k -> k < gates -> s = pre i j k ->
  exists s', s' = pre i j (k + 1) /\ forall F, last1 hit gates c g columns p (i, j) k (s, F) = (F' <- act1 i j k F ;; Some (s', F')).
Proof.
  intros H1 H2 ->. exists (Wd i j k). split; [symmetry; apply pre_next|]. intros F. unfold last1.
  destruct (Nat.ltb_spec (k + g) gates); rewrite !p_some by lia; cbn [bind fst snd]; rewrite pre_at by lia; unfold Wd at 1.
  - rewrite <- W4 by lia. apply test_act; [lia | rewrite taken4; lia].
  - rewrite <- W5 by lia. apply test_act; [lia | rewrite taken5; lia].
Qed.
Lemma vector1_acts F : vector1 hit cube beams dbins gates c g columns i j F = loop (act1 i j) 0 gates F.
Proof.
  unfold vector1. cbv zeta.
  destruct (loop_part (first1 hit gates c g columns p (i, j)) (act1 i j) (fun k s => s = pre i j k) (g + c + 1) 0 r0) as (s1 & E1 & H1);
    [intros k s Hk; apply first_ok; lia | reflexivity|].
  destruct (loop_part (middle1 hit gates c g columns p (i, j)) (act1 i j) (fun k s => s = pre i j k) (gates - (g + c) - (g + c + 1)) (g + c + 1) s1) as (s2 & E2 & H2);
    [intros k s Hk; apply middle_ok; lia | exact E1|].
  destruct (loop_part (last1 hit gates c g columns p (i, j)) (act1 i j) (fun k s => s = pre i j k) (g + c) (gates - (g + c)) s2) as (s3 & E3 & H3);
    [intros k s Hk; apply last_ok; lia | replace (gates - (g + c)) with (g + c + 1 + (gates - (g + c) - (g + c + 1))) by lia; exact E2|].
  rewrite H1, loop_three.
  destruct (loop (act1 i j) 0 (g + c + 1) F) as [F1|]; [|reflexivity]. cbn [bind].
  rewrite H2. destruct (loop (act1 i j) (g + c + 1) _ F1) as [F2|]; [|reflexivity]. cbn [bind].
  rewrite H3. destruct (loop (act1 i j) (gates - (g + c)) (g + c) F2); reflexivity.
Qed.
End OneVector.

(** Four at a time. *)
Section FourVectors.
Variables i j : nat.
Hypothesis Hi : i < beams.
Hypothesis Hj : j + 3 < dbins.
Local Notation p := (fun aa k => option_map square (cell cube beams dbins gates i (j + aa) k)).
Definition act4 (k : nat) (F : found) : option found := loop (fun aa F => act1 i (j + aa) k F) 0 4 F.
Definition rel4 (k : nat) (s : nat -> R) : Prop := forall aa, aa < 4 -> s aa = pre i (j + aa) k.
Lemma p4_some aa k : aa < 4 -> k < gates -> p aa k = Some (sq i (j + aa) k).
Proof. intros Ha Hk. apply (p_some i (j + aa)); lia. Qed.
Lemma strip_some k : k < gates -> exists x, strip p k = Some x /\ forall aa, aa < 4 -> x aa = sq i (j + aa) k.
Proof.
  intros Hk. unfold strip. rewrite !p4_some by lia. cbn [bind]. eexists. split; [reflexivity|].
  intros [|[|[|[|aa]]]] Ha; try reflexivity. lia.
Qed.
Lemma test4_act k used s : k < gates -> used = taken k -> (forall aa, aa < 4 -> s aa = Wd i (j + aa) k) ->
  forall F, test4 hit gates columns p i j k used (s, F) = (F' <- act4 k F ;; Some (s, F')).
Proof.
  intros Hk -> Hs F. unfold test4, act4.
  destruct (loop_part (fun aa s => x <- p aa k ;; if hit x (fst s aa) (taken k) then F <- put gates columns k (i, j + aa) (snd s) ;; Some (fst s, F) else Some s)
             (fun aa F => act1 i (j + aa) k F) (fun _ s' => s' = s) 4 0 s) as (s' & -> & E).
  - intros aa s0 Ha ->. exists s. split; [reflexivity|]. intros F0. cbn [fst snd]. rewrite p4_some by lia. cbn [bind].
    rewrite Hs by lia. unfold act1. fold (h i (j + aa) k). destruct (h i (j + aa) k); reflexivity.
  - reflexivity.
  - apply E.
Qed.
Lemma init_sum4 s : rel4 0 s -> exists s', loop (fun lnd sum => x <- strip p (1 + lnd) ;; Some (fun aa => radd (sum aa) (x aa))) g c s = Some s' /\
  forall aa, aa < 4 -> s' aa = Wd i (j + aa) 0.
Proof.
  intros Hs.
  destruct (loop_rel (fun lnd sum => x <- strip p (1 + lnd) ;; Some (fun aa => radd (sum aa) (x aa)))
    (fun k s => forall aa, aa < 4 -> s aa = rsub (sum (sq i (j + aa)) (k + 1)) (sum (sq i (j + aa)) (g + 1))) c g s) as (s' & E & H).
  - intros k s0 Hk H0. destruct (strip_some (1 + k)) as (x & Ex & Hx); [lia|]. rewrite Ex. cbn [bind]. eexists. split; [reflexivity|].
    intros aa Ha. cbv beta. rewrite H0, Hx by exact Ha. rewrite !(Nat.add_1_r (k + 1)). cbn [sum Nat.add]. rewrite (Nat.add_1_r k). ring.
  - intros aa Ha. rewrite Hs by exact Ha. cbn [pre]. ring.
  - exists s'. split; [exact E|]. intros aa Ha. rewrite H by exact Ha. unfold Wd. rewrite W0 by lia. replace (g + c + 1) with (g + 1 + c) by lia. reflexivity.
Qed.
Lemma step4 k (B : found -> option ((nat -> R) * found)) used s' : k < gates -> used = taken k ->
  (forall aa, aa < 4 -> s' aa = Wd i (j + aa) k) ->
  (forall F, B F = test4 hit gates columns p i j k used (s', F)) ->
  exists s', rel4 (k + 1) s' /\ forall F, B F = (F' <- act4 k F ;; Some (s', F')).
Proof.
  intros Hk Hu Hs HB. exists s'. split.
  - intros aa Ha. rewrite pre_next. apply Hs. exact Ha.
  - intros F. rewrite HB. apply test4_act; assumption.
Qed.

Lemma first4_ok k s : k < g + c + 1 -> rel4 k s ->
  exists s', rel4 (k + 1) s' /\ forall F, first4 hit gates c g columns p i j k (s, F) = (F' <- act4 k F ;; Some (s', F')).
Proof.
  intros Hk Hs. unfold first4. destruct (Nat.eqb_spec k 0) as [-> | H0].
  - destruct (init_sum4 s Hs) as (s' & E & H). apply step4 with (used := c) (s' := s'); [lia | rewrite taken0; lia | exact H|].
    intros F. cbn [fst snd]. rewrite E. reflexivity.
  - destruct (Nat.ltb_spec k (g + 1)).
    + destruct (strip_some (k + g + c)) as (x & Ex & Hx); [lia|]. destruct (strip_some (k + g)) as (y & Ey & Hy); [lia|].
      apply step4 with (used := c) (s' := fun aa => radd (s aa) (rsub (x aa) (y aa))); [lia | rewrite taken0; lia | |].
      * intros aa Ha. cbv beta. rewrite Hs, Hx, Hy, pre_at by lia. unfold Wd. rewrite <- W1 by lia. reflexivity.
      * intros F. rewrite Ex, Ey. reflexivity.
    + destruct (strip_some (k + g + c)) as (x & Ex & Hx); [lia|]. destruct (strip_some (k + g)) as (y & Ey & Hy); [lia|].
      destruct (strip_some (k - (g + 1))) as (z & Ez & Hz); [lia|].
      apply step4 with (used := c + k - (g + 1)) (s' := fun aa => radd (s aa) (radd (rsub (x aa) (y aa)) (z aa))); [lia | rewrite taken2; lia | |].
      * intros aa Ha. cbv beta. rewrite Hs, Hx, Hy, Hz, pre_at by lia. unfold Wd. rewrite <- W2 by lia. reflexivity.
      * intros F. rewrite Ex, Ey, Ez. reflexivity.
Qed.
Lemma middle4_ok k s : g + c + 1 <= k -> k + (g + c) < gates -> rel4 k s ->
  exists s', rel4 (k + 1) s' /\ forall F, middle4 hit gates c g columns p i j k (s, F) = (F' <- act4 k F ;; Some (s', F')).
Proof.
  intros H1 H2 Hs. unfold middle4.
  destruct (strip_some (k + g + c)) as (x & Ex & Hx); [lia|]. destruct (strip_some (k + g)) as (y & Ey & Hy); [lia|].
  destruct (strip_some (k - (g + 1))) as (z & Ez & Hz); [lia|]. destruct (strip_some (k - (c + g + 1))) as (w & Ew & Hw); [lia|].
  apply step4 with (used := 2 * c) (s' := fun aa => radd (s aa) (rsub (radd (rsub (x aa) (y aa)) (z aa)) (w aa))); [lia | rewrite taken3; lia | |].
  - intros aa Ha. cbv beta. rewrite Hs, Hx, Hy, Hz, Hw, pre_at by lia. unfold Wd. rewrite <- W3 by lia. reflexivity.
  - intros F. rewrite Ex, Ey, Ez, Ew. reflexivity.
Qed.
Lemma last4_ok k s : gates - (g + c) <= k -> k < gates -> rel4 k s ->
  exists s', rel4 (k + 1) s' /\ forall F, last4 hit gates c g columns p i j k (s, F) = (F' <- act4 k F ;; Some (s', F')).
Proof.
  intros H1 H2 Hs. unfold last4.
  destruct (strip_some (k - (g + 1))) as (z & Ez & Hz); [lia|]. destruct (strip_some (k - (c + g + 1))) as (w & Ew & Hw); [lia|].
  destruct (Nat.ltb_spec (k + g) gates).
  - destruct (strip_some (k + g)) as (y & Ey & Hy); [lia|].
    apply step4 with (used := c + gates - (k + g)) (s' := fun aa => radd (s aa) (rsub (radd (ropp (y aa)) (z aa)) (w aa))); [lia | rewrite taken4; lia | |].
    + intros aa Ha. cbv beta. rewrite Hs, Hy, Hz, Hw, pre_at by lia. unfold Wd. rewrite <- W4 by lia. reflexivity.
    + intros F. rewrite Ey, Ez, Ew. reflexivity.
  - apply step4 with (used := c) (s' := fun aa => radd (s aa) (rsub (z aa) (w aa))); [lia | rewrite taken5; lia | |].
    + intros aa Ha. cbv beta. rewrite Hs, Hz, Hw, pre_at by lia. unfold Wd. rewrite <- W5 by lia. reflexivity.
    + intros F. rewrite Ez, Ew. reflexivity.
Qed.
Lemma vector4_acts F : vector4 hit cube beams dbins gates c g columns i j F = loop act4 0 gates F.
Proof.
  unfold vector4. cbv zeta.
  destruct (loop_part (first4 hit gates c g columns p i j) act4 rel4 (g + c + 1) 0 (fun _ => r0)) as (s1 & E1 & H1);
    [intros k s Hk; apply first4_ok; lia | intros aa _; reflexivity|].
  destruct (loop_part (middle4 hit gates c g columns p i j) act4 rel4 (gates - (g + c) - (g + c + 1)) (g + c + 1) s1) as (s2 & E2 & H2);
    [intros k s Hk; apply middle4_ok; lia | exact E1|].
  destruct (loop_part (last4 hit gates c g columns p i j) act4 rel4 (g + c) (gates - (g + c)) s2) as (s3 & E3 & H3);
    [intros k s Hk; apply last4_ok; lia | replace (gates - (g + c)) with (g + c + 1 + (gates - (g + c) - (g + c + 1))) by lia; exact E2|].
  rewrite H1, loop_three.
  destruct (loop act4 0 (g + c + 1) F) as [F1|]; [|reflexivity]. cbn [bind].
  rewrite H2. destruct (loop act4 (g + c + 1) _ F1) as [F2|]; [|reflexivity]. cbn [bind].
  rewrite H3. destruct (loop act4 (gates - (g + c)) (g + c) F2); reflexivity.
Qed.
End FourVectors.

(** All together. *)
Definition goods (k : nat) : list (nat * nat) := filter (fun ij => h (fst ij) (snd ij) k) (list_prod (seq 0 beams) (seq 0 dbins)).
Definition actm (k : nat) (F : nat -> nat * list (nat * nat)) : option (nat -> nat * list (nat * nat)) :=
  Some (fun k' => if k' =? k then (length (goods k), firstn columns (goods k)) else F k').
Definition relm (k : nat) (s : nat -> nat -> R) : Prop := forall i j, i < beams -> j < dbins -> s i j = pre i j k.
Lemma slice_some k : k < gates -> slice cube gates k = Some (fun i j => sq i j k).
Proof. intros Hk. unfold slice. rewrite (proj2 (Nat.ltb_lt _ _) Hk). reflexivity. Qed.
Lemma stepm k (B : (nat -> nat * list (nat * nat)) -> option ((nat -> nat -> R) * (nat -> nat * list (nat * nat)))) used s' :
  k < gates -> used = taken k -> (forall i j, i < beams -> j < dbins -> s' i j = Wd i j k) ->
  (forall F, B F = testm hit cube beams dbins gates columns k used s' F) ->
  exists s', relm (k + 1) s' /\ forall F, B F = (F' <- actm k F ;; Some (s', F')).
Proof.
  intros Hk -> Hs HB. exists s'. split.
  - intros i j Hi Hj. rewrite pre_next. apply Hs; assumption.
  - intros F. rewrite HB. unfold testm. rewrite slice_some by exact Hk. cbn [bind actm].
    assert (E : indexbool beams dbins columns (fun i j => hit (sq i j k) (s' i j) (taken k)) = (length (goods k), firstn columns (goods k))).
    { unfold indexbool. cbv zeta.
      assert (E : filter (fun ij => hit (sq (fst ij) (snd ij) k) (s' (fst ij) (snd ij)) (taken k)) (list_prod (seq 0 beams) (seq 0 dbins)) = goods k).
      { apply filter_ext_in. intros [i j] Hin. apply in_prod_iff in Hin. rewrite !in_seq in Hin. cbn [fst snd]. rewrite Hs by lia. reflexivity. }
      rewrite E. reflexivity. }
    rewrite E. reflexivity.
Qed.
Lemma init_summ s : relm 0 s -> exists s', loop (fun lnd sum => x <- slice cube gates (1 + lnd) ;; Some (madd sum x)) g c s = Some s' /\
  forall i j, i < beams -> j < dbins -> s' i j = Wd i j 0.
Proof.
  intros Hs.
  destruct (loop_rel (fun lnd sum => x <- slice cube gates (1 + lnd) ;; Some (madd sum x))
    (fun k s => forall i j, i < beams -> j < dbins -> s i j = rsub (sum (sq i j) (k + 1)) (sum (sq i j) (g + 1))) c g s) as (s' & E & H).
  - intros k s0 Hk H0. rewrite slice_some by lia. cbn [bind]. eexists. split; [reflexivity|].
    intros i j Hi Hj. unfold madd. rewrite H0 by assumption. rewrite !(Nat.add_1_r (k + 1)). cbn [sum Nat.add]. rewrite (Nat.add_1_r k). ring.
  - intros i j Hi Hj. rewrite Hs by assumption. cbn [pre]. ring.
  - exists s'. split; [exact E|]. intros i j Hi Hj. rewrite H by assumption. unfold Wd. rewrite W0 by lia. replace (g + c + 1) with (g + 1 + c) by lia. reflexivity.
Qed.
Lemma firstm_ok k s : k < g + c + 1 -> relm k s ->
  exists s', relm (k + 1) s' /\ forall F, firstm hit cube beams dbins gates c g columns k (s, F) = (F' <- actm k F ;; Some (s', F')).
Proof.
  intros Hk Hs. unfold firstm. destruct (Nat.eqb_spec k 0) as [-> | H0].
  - destruct (init_summ s Hs) as (s' & E & H). apply stepm with (used := c) (s' := s'); [lia | rewrite taken0; lia | exact H|].
    intros F. cbn [fst snd]. rewrite E. reflexivity.
  - destruct (Nat.ltb_spec k (g + 1)).
    + eapply stepm with (used := c); [lia | rewrite taken0; lia | | intros F; cbn [fst snd]; rewrite !slice_some by lia; reflexivity].
      intros i j Hi Hj. unfold msub, madd. cbn [fst]. rewrite Hs, pre_at by lia. unfold Wd. rewrite (W1 (sq i j) gates c g k) by lia. ring.
    + eapply stepm with (used := c + k - (g + 1)); [lia | rewrite taken2; lia | | intros F; cbn [fst snd]; rewrite !slice_some by lia; reflexivity].
      intros i j Hi Hj. unfold msub, madd. cbn [fst]. rewrite Hs, pre_at by lia. unfold Wd. rewrite (W2 (sq i j) gates c g k) by lia. ring.
Qed.
Lemma middlem_ok k s : g + c + 1 <= k -> k + (g + c) < gates -> relm k s ->
  exists s', relm (k + 1) s' /\ forall F, middlem hit cube beams dbins gates c g columns k (s, F) = (F' <- actm k F ;; Some (s', F')).
Proof.
  intros H1 H2 Hs. unfold middlem.
  eapply stepm with (used := 2 * c); [lia | rewrite taken3; lia | | intros F; cbn [fst snd]; rewrite !slice_some by lia; reflexivity].
  intros i j Hi Hj. unfold msub, madd. cbn [fst]. rewrite Hs, pre_at by lia. unfold Wd. rewrite (W3 (sq i j) gates c g k) by lia. ring.
Qed.
Lemma lastm_ok k s : gates - (g + c) <= k -> k < gates -> relm k s ->
  exists s', relm (k + 1) s' /\ forall F, lastm hit cube beams dbins gates c g columns k (s, F) = (F' <- actm k F ;; Some (s', F')).
Proof.
  intros H1 H2 Hs. unfold lastm. destruct (Nat.ltb_spec (k + g) gates).
  - eapply stepm with (used := c + gates - (k + g)); [lia | rewrite taken4; lia | | intros F; cbn [fst snd]; rewrite !slice_some by lia; reflexivity].
    intros i j Hi Hj. unfold msub, madd. cbn [fst]. rewrite Hs, pre_at by lia. unfold Wd. rewrite (W4 (sq i j) gates c g k) by lia. ring.
  - eapply stepm with (used := c); [lia | rewrite taken5; lia | | intros F; cbn [fst snd]; rewrite !slice_some by lia; reflexivity].
    intros i j Hi Hj. unfold msub, madd. cbn [fst]. rewrite Hs, pre_at by lia. unfold Wd. rewrite (W5 (sq i j) gates c g k) by lia. ring.
Qed.
Lemma by_slice_acts F : by_slice hit cube beams dbins gates c g columns F = loop actm 0 gates F.
Proof.
  unfold by_slice.
  destruct (loop_part (firstm hit cube beams dbins gates c g columns) actm relm (g + c + 1) 0 (fun _ _ => r0)) as (s1 & E1 & H1);
    [intros k s Hk; apply firstm_ok; lia | intros i j _ _; reflexivity|].
  destruct (loop_part (middlem hit cube beams dbins gates c g columns) actm relm (gates - (g + c) - (g + c + 1)) (g + c + 1) s1) as (s2 & E2 & H2);
    [intros k s Hk; apply middlem_ok; lia | exact E1|].
  destruct (loop_part (lastm hit cube beams dbins gates c g columns) actm relm (g + c) (gates - (g + c)) s2) as (s3 & E3 & H3);
    [intros k s Hk; apply lastm_ok; lia | replace (gates - (g + c)) with (g + c + 1 + (gates - (g + c) - (g + c + 1))) by lia; exact E2|].
  rewrite H1, loop_three.
  destruct (loop actm 0 (g + c + 1) F) as [F1|]; [|reflexivity]. cbn [bind].
  rewrite H2. destruct (loop actm (g + c + 1) _ F1) as [F2|]; [|reflexivity]. cbn [bind].
  rewrite H3. destruct (loop actm (gates - (g + c)) (g + c) F2); reflexivity.
Qed.
Lemma by_slice_ok F : exists G, by_slice hit cube beams dbins gates c g columns F = Some G /\
  forall k, k < gates -> G k = (length (goods k), firstn columns (goods k)).
Proof.
  rewrite by_slice_acts.
  destruct (loop_rel actm (fun n G => forall k, k < n -> G k = (length (goods k), firstn columns (goods k))) gates 0 F) as (G & E & H).
  - intros k G Hk HG. eexists. split; [reflexivity|]. intros k' Hk'. cbv beta. destruct (Nat.eqb_spec k' k) as [-> | Hne]; [reflexivity|].
    apply HG. lia.
  - intros k Hk. lia.
  - exists G. split; [exact E | exact H].
Qed.

(** The sequence of entries made. *)
Fixpoint run (l : list (nat * (nat * nat))) (F : found) : option found :=
  match l with [] => Some F | e :: l' => F' <- put gates columns (fst e) (snd e) F ;; run l' F' end.
Lemma run_app l1 l2 : forall F, run (l1 ++ l2) F = (F' <- run l1 F ;; run l2 F').
Proof. induction l1; intros F; [reflexivity|]. cbn [app run]. destruct (put gates columns (fst a) (snd a) F); [apply IHl1 | reflexivity]. Qed.
Lemma loop_run (f : nat -> found -> option found) (ev : nat -> list (nat * (nat * nat))) n : forall a F,
  (forall k F, a <= k < a + n -> f k F = run (ev k) F) -> loop f a n F = run (flat_map ev (seq a n)) F.
Proof.
  induction n; intros a F H; [reflexivity|]. cbn [loop seq flat_map]. rewrite run_app, H by lia.
  destruct (run (ev a) F); [|reflexivity]. cbn [bind]. rewrite Nat.add_1_r. apply IHn. intros. apply H. lia.
Qed.
Definition at_gate (k : nat) (l : list (nat * (nat * nat))) : list (nat * nat) := map snd (filter (fun e => fst e =? k) l).
Lemma at_gate_app k l1 l2 : at_gate k (l1 ++ l2) = at_gate k l1 ++ at_gate k l2.
Proof. unfold at_gate. rewrite filter_app, map_app. reflexivity. Qed.
Lemma at_gate_flat {A} k (f : A -> list (nat * (nat * nat))) l : at_gate k (flat_map f l) = flat_map (fun x => at_gate k (f x)) l.
Proof. induction l; [reflexivity|]. cbn [flat_map]. rewrite at_gate_app, IHl. reflexivity. Qed.
Lemma run_ok l : forall F, (forall e, In e l -> fst e < gates) ->
  (forall k, k < gates -> length (F k) + length (at_gate k l) <= columns) ->
  exists F', run l F = Some F' /\ forall k, F' k = F k ++ at_gate k l.
Proof.
  induction l as [|[k0 ij] l IH]; intros F Hg Hl.
  - exists F. split; [reflexivity|]. intros k. cbn. rewrite app_nil_r. reflexivity.
  - assert (Hk0 : k0 < gates) by (apply (Hg (k0, ij)); left; reflexivity).
    assert (Hlen : length (F k0) < columns).
    { specialize (Hl k0 Hk0). unfold at_gate in Hl. cbn [filter fst] in Hl. rewrite Nat.eqb_refl in Hl. cbn [map length] in Hl. lia. }
    cbn [run fst snd]. unfold put at 1. rewrite (proj2 (Nat.ltb_lt _ _) Hk0), (proj2 (Nat.ltb_lt _ _) Hlen). cbn [andb bind].
    destruct (IH (fun k' => if k' =? k0 then F k0 ++ [ij] else F k')) as (F' & E & H).
    + intros e He. apply Hg. right. exact He.
    + intros k Hk. specialize (Hl k Hk). unfold at_gate in Hl |- *. cbn [filter fst] in Hl. rewrite (Nat.eqb_sym k0 k) in Hl.
      destruct (Nat.eqb_spec k k0) as [Ek | Ek]; [subst k | exact Hl]. cbn [map length] in Hl. rewrite app_length. cbn [length]. lia.
    + exists F'. split; [exact E|]. intros k. rewrite H. unfold at_gate. cbn [filter fst]. rewrite (Nat.eqb_sym k0 k).
      destruct (Nat.eqb_spec k k0) as [Ek | Ek]; [subst k | reflexivity]. cbn [map snd]. rewrite <- app_assoc. reflexivity.
Qed.

Definition ev (i j k : nat) : list (nat * (nat * nat)) := if h i j k then [(k, (i, j))] else [].
Lemma act1_run i j k F : act1 i j k F = run (ev i j k) F.
Proof. unfold act1, ev. destruct (h i j k); [|reflexivity]. cbn [run fst snd]. destruct (put gates columns k (i, j) F); reflexivity. Qed.
Lemma at_gate_ev i j k k' : at_gate k (ev i j k') = if k' =? k then (if h i j k then [(i, j)] else []) else [].
Proof.
  unfold ev. destruct (Nat.eqb_spec k' k) as [-> | Hne].
  - destruct (h i j k); [|reflexivity]. unfold at_gate. cbn [filter fst]. rewrite Nat.eqb_refl. reflexivity.
  - destruct (h i j k'); [|reflexivity]. unfold at_gate. cbn [filter fst]. rewrite (proj2 (Nat.eqb_neq _ _) Hne). reflexivity.
Qed.
Lemma flat_one {A} k (X : list A) n : forall a, flat_map (fun k' => if k' =? k then X else []) (seq a n) = if (a <=? k) && (k <? a + n) then X else [].
Proof.
  induction n; intros a; cbn [seq flat_map].
  - destruct (Nat.leb_spec a k), (Nat.ltb_spec k (a + 0)); try reflexivity. lia.
  - rewrite IHn. destruct (Nat.eqb_spec a k), (Nat.leb_spec a k), (Nat.leb_spec (S a) k), (Nat.ltb_spec k (S a + n)), (Nat.ltb_spec k (a + S n)); try lia; cbn [andb]; rewrite ?app_nil_r; reflexivity.
Qed.
Lemma flat_map_ext_in {A B} (f f' : A -> list B) l : (forall x, In x l -> f x = f' x) -> flat_map f l = flat_map f' l.
Proof. induction l; intros H; [reflexivity|]. cbn. rewrite H by (left; reflexivity). f_equal. apply IHl. intros. apply H. right. assumption. Qed.
Lemma goods_flat k : goods k = flat_map (fun i => flat_map (fun j => if h i j k then [(i, j)] else []) (seq 0 dbins)) (seq 0 beams).
Proof.
  unfold goods. induction (seq 0 beams) as [|i l IH]; [reflexivity|]. cbn [list_prod flat_map]. rewrite filter_app, IH. f_equal.
  clear. induction (seq 0 dbins) as [|j l IH]; [reflexivity|]. cbn [map filter flat_map fst snd]. rewrite IH. destruct (h i j k); reflexivity.
Qed.

Lemma by_vector_ok : (forall k, k < gates -> length (goods k) <= columns) ->
  exists F, by_vector hit cube beams dbins gates c g columns = Some F /\ forall k, k < gates -> F k = goods k.
Proof.
  intros Hl. unfold by_vector.
  assert (E : loop (fun i F => loop (fun j F => vector1 hit cube beams dbins gates c g columns i j F) 0 dbins F) 0 beams (fun _ => []) =
    run (flat_map (fun i => flat_map (fun j => flat_map (ev i j) (seq 0 gates)) (seq 0 dbins)) (seq 0 beams)) (fun _ => [])).
  { apply loop_run. intros i F Hi. apply loop_run. intros j F' Hj. rewrite vector1_acts by lia. apply loop_run. intros. apply act1_run. }
  rewrite E.
  assert (A : forall k, k < gates -> at_gate k (flat_map (fun i => flat_map (fun j => flat_map (ev i j) (seq 0 gates)) (seq 0 dbins)) (seq 0 beams)) = goods k).
  { intros k Hk. rewrite goods_flat, at_gate_flat. apply flat_map_ext_in. intros i _. rewrite at_gate_flat. apply flat_map_ext_in. intros j _.
    rewrite at_gate_flat. rewrite (flat_map_ext_in _ (fun k' => if k' =? k then (if h i j k then [(i, j)] else []) else [])) by (intros; apply at_gate_ev).
    rewrite flat_one. cbn [Nat.leb Nat.add andb]. rewrite (proj2 (Nat.ltb_lt _ _) Hk). reflexivity. }
  destruct (run_ok (flat_map (fun i => flat_map (fun j => flat_map (ev i j) (seq 0 gates)) (seq 0 dbins)) (seq 0 beams)) (fun _ => [])) as (F & EF & HF).
  - intros e He. apply in_flat_map in He. destruct He as (i & _ & He). apply in_flat_map in He. destruct He as (j & _ & He).
    apply in_flat_map in He. destruct He as (k & Hk & He). unfold ev in He. destruct (h i j k); [|contradiction]. destruct He as [<- | []].
    apply in_seq in Hk. cbn. lia.
  - intros k Hk. rewrite A by exact Hk. cbn [length Nat.add]. apply Hl. exact Hk.
  - exists F. split; [exact EF|]. intros k Hk. rewrite HF, A by exact Hk. reflexivity.
Qed.

Lemma flat_four {A} (f : nat -> list A) q : flat_map (fun b => flat_map (fun aa => f (4 * b + aa)) (seq 0 4)) (seq 0 q) = flat_map f (seq 0 (4 * q)).
Proof.
  induction q; [reflexivity|]. replace (seq 0 (S q)) with (seq 0 q ++ [q]) by (symmetry; apply seq_S). rewrite flat_map_app, IHq. replace (4 * S q) with (4 * q + 4) by lia. rewrite (seq_app (4 * q) 4 0), flat_map_app. f_equal.
  cbn [Nat.add flat_map seq]. rewrite !app_nil_r, Nat.add_0_r. replace (4 * q + 1) with (S (4 * q)) by lia. replace (4 * q + 2) with (S (S (4 * q))) by lia.
  replace (4 * q + 3) with (S (S (S (4 * q)))) by lia. reflexivity.
Qed.
Lemma by_four_ok q : dbins = 4 * q -> (forall k, k < gates -> length (goods k) <= columns) ->
  exists F, by_four hit cube beams dbins gates c g columns = Some F /\ forall k, k < gates -> F k = goods k.
Proof.
  intros Hq Hl. unfold by_four.
  assert (Eq : (dbins + 3) / 4 = q) by (rewrite Hq; symmetry; apply Nat.div_unique with 3; lia).
  rewrite Eq.
  set (evs := flat_map (fun i => flat_map (fun b => flat_map (fun k => flat_map (fun aa => ev i (4 * b + aa) k) (seq 0 4)) (seq 0 gates)) (seq 0 q)) (seq 0 beams)).
  assert (E : loop (fun i F => loop (fun b F => vector4 hit cube beams dbins gates c g columns i (4 * b) F) 0 q F) 0 beams (fun _ => []) = run evs (fun _ => [])).
  { apply loop_run. intros i F Hi. apply loop_run. intros b F' Hb. rewrite vector4_acts by lia. apply loop_run. intros k F2 Hk.
    unfold act4. apply loop_run. intros. apply act1_run. }
  rewrite E.
  assert (A : forall k, k < gates -> at_gate k evs = goods k).
  { intros k Hk. rewrite goods_flat. unfold evs. rewrite at_gate_flat. apply flat_map_ext_in. intros i _. rewrite at_gate_flat, Hq, <- flat_four. apply flat_map_ext_in. intros b _.
    rewrite at_gate_flat.
    rewrite (flat_map_ext_in _ (fun k' => if k' =? k then flat_map (fun aa => if h i (4 * b + aa) k then [(i, 4 * b + aa)] else []) (seq 0 4) else [])).
    - rewrite flat_one. cbn [Nat.leb Nat.add andb]. rewrite (proj2 (Nat.ltb_lt _ _) Hk). reflexivity.
    - intros k' _. rewrite at_gate_flat. destruct (Nat.eqb_spec k' k) as [-> | Hne].
      + apply flat_map_ext_in. intros aa _. rewrite at_gate_ev, Nat.eqb_refl. reflexivity.
      + transitivity (flat_map (fun _ : nat => @nil (nat * nat)) (seq 0 4)); [|reflexivity]. apply flat_map_ext_in. intros aa _. rewrite at_gate_ev, (proj2 (Nat.eqb_neq _ _) Hne). reflexivity. }
  destruct (run_ok evs (fun _ => [])) as (F & EF & HF).
  - intros e He. unfold evs in He. apply in_flat_map in He. destruct He as (i & _ & He). apply in_flat_map in He. destruct He as (b & _ & He).
    apply in_flat_map in He. destruct He as (k & Hk & He). apply in_flat_map in He. destruct He as (aa & _ & He).
    unfold ev in He. destruct (h i (4 * b + aa) k); [|contradiction]. destruct He as [<- | []]. apply in_seq in Hk. cbn. lia.
  - intros k Hk. rewrite A by exact Hk. cbn [length Nat.add]. apply Hl. exact Hk.
  - exists F. split; [exact EF|]. intros k Hk. rewrite HF, A by exact Hk. reflexivity.
Qed.

(** The specification. *)
Lemma surroundings_W i j k : k < gates -> surroundings cube gates c g i j k = Wd i j k.
Proof.
  intros Hk. unfold surroundings. rewrite near_segments by exact Hk. rewrite map_app, fold_app.
  rewrite !(sum_seq (sq i j)). unfold Wd, W.
  replace (k - g - c + (k - g - (k - g - c))) with (k - g) by lia.
  replace (Nat.min (k + g + 1) gates + (Nat.min (k + g + c + 1) gates - Nat.min (k + g + 1) gates)) with (Nat.min (k + g + c + 1) gates) by lia. ring.
Qed.
Lemma goods_targets k : k < gates -> goods k = targets hit cube beams dbins gates c g k (taken k).
Proof. intros Hk. unfold goods, targets. apply filter_ext. intros [i j]. cbn [fst snd]. rewrite surroundings_W by exact Hk. reflexivity. Qed.
Lemma taken_near k : k < gates -> k <= g \/ g + c < k /\ k + (g + c) < gates \/ gates <= k + g -> taken k = length (near gates c g k).
Proof.
  intros Hk H. rewrite near_count by exact Hk. destruct H as [H | [[H1 H2] | H]].
  - rewrite taken0 by exact H. lia.
  - rewrite taken3 by assumption. lia.
  - rewrite taken5 by exact H. lia.
Qed.
Lemma taken_left k : g < k -> k <= g + c -> taken k = length (near gates c g k) - 1.
Proof. intros H1 H2. rewrite near_count by lia. rewrite taken2 by assumption. lia. Qed.
Lemma taken_right k : gates <= k + (g + c) -> k + g < gates -> taken k = length (near gates c g k) + 1.
Proof. intros H1 H2. rewrite near_count by lia. rewrite taken4 by assumption. lia. Qed.
End Kernels.

(** A number of bins that is not a multiple of four. *)
Lemma loop_none {X} (f : nat -> X -> option X) k n : forall a s, a <= k < a + n -> (forall s, f k s = None) -> loop f a n s = None.
Proof.
  induction n; intros a s Hk Hf; [lia|]. cbn [loop]. destruct (Nat.eq_dec a k) as [-> |]; [rewrite Hf; reflexivity|].
  destruct (f a s); [|reflexivity]. cbn [bind]. apply IHn; [lia | exact Hf].
Qed.
Lemma by_four_odd {R : CRing} hit (cube : nat -> nat -> nat -> R) beams dbins gates c g columns :
  0 < beams -> dbins mod 4 <> 0 -> by_four hit cube beams dbins gates c g columns = None.
Proof.
  intros Hb Hd. assert (D : dbins = 4 * (dbins / 4) + dbins mod 4) by (apply Nat.div_mod; lia).
  assert (M : dbins mod 4 < 4) by (apply Nat.mod_upper_bound; lia).
  assert (Q : (dbins + 3) / 4 = S (dbins / 4)).
  { symmetry. apply Nat.div_unique with (dbins mod 4 - 1); lia. }
  unfold by_four. apply (loop_none _ 0); [lia|]. intros F. rewrite Q. apply (loop_none _ (dbins / 4)); [lia|]. intros F'.
  unfold vector4. cbv zeta. rewrite (loop_none _ 0); [reflexivity | lia|]. intros s. unfold first4. cbn [Nat.eqb].
  destruct (loop _ g c (fst s)); [|reflexivity]. cbn [bind]. unfold test4. apply (loop_none _ 3); [lia|]. intros s0.
  unfold cell. rewrite (proj2 (Nat.ltb_ge (4 * (dbins / 4) + 3) dbins)) by lia. rewrite andb_false_r. reflexivity.
Qed.
