(** Proofs about the Toeplitz solver. *)
From Coq Require Import ZArith List Lia Bool Arith.
From Verif Require Import Base FirProofs Toep.
Import ListNotations.
Local Open Scope nat_scope.

Section P.
Context {F : StarField}.
Local Open Scope cr_scope.
Notation K := (fk F).
Notation "^ a" := (fconj F a) (at level 30) : cr_scope.
Add Ring Kring : (r_th K).

Lemma conj_0 : ^ 0 = 0 :> K.
Proof. assert (E : ^ 0 + ^ 0 = ^ 0 + 0 :> K) by (rewrite <- fconj_add; replace (0 + 0 : K) with (0 : K) by ring; ring).
  assert (E2 : ^ 0 + ^ 0 - ^ 0 = ^ 0 + 0 - ^ 0 :> K) by (rewrite E; reflexivity). transitivity (^ 0 + ^ 0 - ^ 0 : K); [ring|]. rewrite E2. ring. Qed.
Lemma conj_opp (a : K) : ^ (- a) = - ^ a.
Proof. transitivity (^ (- a) + ^ a - ^ a); [ring|]. rewrite <- fconj_add. replace (- a + a) with (0 : K) by ring. rewrite conj_0. ring. Qed.
Lemma conj_sub (a b : K) : ^ (a - b) = ^ a - ^ b.
Proof. replace (a - b) with (a + - b) by ring. rewrite fconj_add, conj_opp. ring. Qed.
Lemma conj_sum (f : nat -> K) n : ^ sum f n = sum (fun i => ^ f i) n.
Proof. induction n as [|n IH]; cbn; [apply conj_0|]. rewrite fconj_add, IH. reflexivity. Qed.
Lemma inv_l (a : K) : a <> 0 -> finv F a * a = 1.
Proof. intros H. rewrite <- (finv_ok F a H). ring. Qed.
Lemma mul_cancel (c a b : K) : c <> 0 -> a * c = b * c -> a = b.
Proof. intros H E. transitivity (a * (c * finv F c)); [rewrite finv_ok by exact H; ring|]. transitivity (b * (c * finv F c)); [|rewrite finv_ok by exact H; ring]. transitivity (a * c * finv F c); [ring|]. rewrite E. ring. Qed.
Lemma conj_inv (a : K) : a <> 0 -> ^ a = a -> ^ finv F a = finv F a.
Proof. intros H E. apply (mul_cancel a); [exact H|]. rewrite inv_l by exact H. rewrite <- E at 2. rewrite <- fconj_mul, inv_l by exact H. apply fconj_1. Qed.
Lemma mul_nz (a b : K) : a <> 0 -> b <> 0 -> a * b <> 0.
Proof. intros Ha Hb E. apply Hb. transitivity (finv F a * (a * b)); [transitivity (finv F a * a * b); [rewrite inv_l by exact Ha; ring|ring]|]. rewrite E. ring. Qed.
Lemma fdiv_some (a b c : K) : fdiv a b = Some c -> b <> 0 /\ c * b = a.
Proof.
  unfold fdiv. destruct (feqb F b 0) eqn:E; cbn [negb bind]; [discriminate|]. intros [= <-].
  assert (N : b <> 0) by (intros ->; rewrite (proj2 (feqb_ok F 0 0) eq_refl) in E; discriminate).
  split; [exact N|]. transitivity (a * (finv F b * b)); [ring|]. rewrite inv_l by exact N. ring.
Qed.
Lemma fdiv_nz (a b : K) : b <> 0 -> exists c, fdiv a b = Some c.
Proof. intros H. unfold fdiv. destruct (feqb F b 0) eqn:E; [apply feqb_ok in E; contradiction|]. cbn. eauto. Qed.

(** Vectors. *)
Notation at_ v i := (nth i v (0 : K)).
Lemma bget_at (v : list K) i : (i < length v)%nat -> bget v i = Some (at_ v i).
Proof. apply nth_error_nth'. Qed.
Lemma bput_at (v : list K) i a : (i < length v)%nat -> exists v', bput v i a = Some v' /\ length v' = length v /\ forall j, at_ v' j = if (j =? i)%nat then a else at_ v j.
Proof.
  intros H. rewrite bput_some by exact H. eexists. split; [reflexivity|]. split; [apply lset_length|]. intros j.
  destruct (Nat.eqb_spec j i) as [->|N].
  - apply nth_error_nth. rewrite lset_nth, Nat.eqb_refl. destruct (Nat.ltb_spec i (length v)); [reflexivity|lia].
  - destruct (nth_error v j) as [c|] eqn:E.
    + rewrite (nth_error_nth v j 0 E). apply nth_error_nth. rewrite lset_nth. destruct (Nat.eqb_spec j i); [contradiction|exact E].
    + apply nth_error_None in E. rewrite !nth_overflow; [reflexivity|exact E|rewrite lset_length; exact E].
Qed.
Lemma fill_ok (g : nat -> list K -> option (list K)) (f : nat -> K) k (d : list K) : (k <= length d)%nat ->
  (forall i e, (i < k)%nat -> length e = length d -> (forall j, (i <= j)%nat -> at_ e j = at_ d j) -> g i e = bput e i (f i)) ->
  exists e, loop g 0 k d = Some e /\ length e = length d /\ forall j, at_ e j = if (j <? k)%nat then f j else at_ d j.
Proof.
  intros Hk Hg. destruct (loop_inv g (fun i e => length e = length d /\ forall j, at_ e j = if (j <? i)%nat then f j else at_ d j) k 0%nat d) as (e & E & P).
  - split; [reflexivity|]. intros j. reflexivity.
  - intros i e [_ Hi] [L P]. rewrite Hg; [|lia|exact L|intros j Hj; rewrite P; destruct (Nat.ltb_spec j i); [lia|reflexivity]].
    destruct (bput_at e i (f i) ltac:(lia)) as (e' & E' & L' & P'). exists e'. split; [exact E'|]. split; [lia|].
    intros j. rewrite P', P. destruct (Nat.eqb_spec j i) as [Ej|Ej], (Nat.ltb_spec j i), (Nat.ltb_spec j (i + 1)); try lia; try reflexivity.
    rewrite Ej. reflexivity.
  - exists e. auto.
Qed.
Lemma acc_ok (g : nat -> K -> option K) (f : nat -> K) k : (forall i s, (i < k)%nat -> g i s = Some (s + f i)) -> loop g 0 k 0 = Some (sum f k).
Proof.
  intros H. destruct (loop_inv g (fun i s => s = sum f i) k 0%nat 0) as (s & E & ->); [reflexivity| |exact E].
  intros i s [_ Hi] ->. rewrite H by lia. eexists. split; [reflexivity|]. rewrite Nat.add_1_r. reflexivity.
Qed.
Lemma dot_rev_ok (t v : list K) k : (k < length t)%nat -> (k <= length v)%nat -> dot_rev t v k = Some (sum (fun i => ^ at_ t (S i) * at_ v (k - 1 - i)) k).
Proof. intros Ht Hv. unfold dot_rev. apply acc_ok. intros i s Hi. rewrite !bget_at by lia. reflexivity. Qed.
Lemma add_rev_ok mu (y x : list K) k : (k <= length y)%nat -> (k <= length x)%nat ->
  exists x', add_rev mu y x k = Some x' /\ length x' = length x /\ forall j, at_ x' j = if (j <? k)%nat then mu * ^ at_ y (k - 1 - j) + at_ x j else at_ x j.
Proof.
  intros Hy Hx. unfold add_rev. apply (fill_ok _ (fun j => mu * ^ at_ y (k - 1 - j) + at_ x j)); [exact Hx|].
  intros i e Hi L P. rewrite !bget_at by lia. cbn [bind]. rewrite P by lia. reflexivity.
Qed.
Lemma add_rev_tmp_ok alpha (y tmpv : list K) k : (k <= length y)%nat -> (k <= length tmpv)%nat ->
  exists y' tmpv', add_rev_tmp alpha y tmpv k = Some (y', tmpv') /\ length y' = length y /\ length tmpv' = length tmpv /\
    forall j, at_ y' j = if (j <? k)%nat then alpha * ^ at_ y (k - 1 - j) + at_ y j else at_ y j.
Proof.
  intros Hy Ht. unfold add_rev_tmp.
  match goal with |- context [bind (loop ?G 0 k tmpv) _] => destruct (fill_ok G (fun j => alpha * ^ at_ y (k - 1 - j) + at_ y j) k tmpv Ht) as (tv & E & L & P) end.
  - intros i e Hi L P. rewrite !bget_at by lia. reflexivity.
  - rewrite E. cbn [bind]. match goal with |- context [bind (loop ?G 0 k y) _] => destruct (fill_ok G (fun j => alpha * ^ at_ y (k - 1 - j) + at_ y j) k y Hy) as (y' & E' & L' & P') end.
    + intros i e Hi Le Pe. rewrite bget_at by lia. cbn [bind]. rewrite P. destruct (Nat.ltb_spec i k); [reflexivity|lia].
    + rewrite E'. cbn [bind]. exists y', tv. auto.
Qed.

(** The recursion. *)
Section Levinson.
Variables (t b : list K).
Let n := length t.
Let s := at_ t 0.
Hypothesis s_real : ^ s = s.
Notation T i j := (toeplitz t i j).
Notation ry y k j := (^ at_ y (k - 1 - j)).
(** y solves T_k y = - conj(t_1..t_k); reversed and conjugated, it extends T_k. *)
Definition Yinv (y : list K) k := forall i, (i < k)%nat -> sum (fun j => T i j * at_ y j) k = - ^ at_ t (S i).
Definition Binv (y : list K) k (beta : K) := s * beta = s + sum (fun i => ^ at_ t (S i) * ^ at_ y i) k /\ ^ beta = beta.
Definition Xinv (x : list K) k := forall i, (i < k)%nat -> sum (fun j => T i j * at_ x j) k = at_ b i.
Lemma T_conj i j : ^ (T i j) = T j i.
Proof.
  unfold toeplitz. destruct (Nat.leb_spec i j), (Nat.leb_spec j i); try lia; [|reflexivity|apply fconj_conj].
  assert (i = j) by lia. subst j. rewrite Nat.sub_diag. exact s_real.
Qed.
Lemma T_shift i j k : (i < k)%nat -> (j < k)%nat -> T (k - 1 - i) (k - 1 - j) = T j i.
Proof.
  intros Hi Hj. unfold toeplitz. destruct (Nat.leb_spec (k - 1 - i) (k - 1 - j)), (Nat.leb_spec j i); try lia.
  - f_equal. lia.
  - do 2 f_equal. lia.
Qed.
Lemma T_last k j : (j < k)%nat -> T k j = ^ at_ t (k - j).
Proof. intros H. unfold toeplitz. destruct (Nat.leb_spec k j); [lia|reflexivity]. Qed.
Lemma T_up i k : (i <= k)%nat -> T i k = at_ t (k - i).
Proof. intros H. unfold toeplitz. destruct (Nat.leb_spec i k); [reflexivity|lia]. Qed.
Lemma Y_rev y k : Yinv y k -> forall i, (i < k)%nat -> sum (fun j => T i j * ry y k j) k = - T i k.
Proof.
  intros Y i Hi. rewrite (sum_rev _ (fun j => T i j * ry y k j)).
  rewrite (sum_ext _ _ (fun j => ^ (T (k - 1 - i) j * at_ y j))).
  - rewrite <- conj_sum, Y by lia. rewrite conj_opp, fconj_conj, T_up by lia. do 2 f_equal. lia.
  - intros j Hj. rewrite fconj_mul, T_conj. replace (k - 1 - (k - 1 - j))%nat with j by lia. f_equal.
    rewrite <- (T_shift (k - 1 - j) i k) by lia. replace (k - 1 - (k - 1 - j))%nat with j by lia. unfold toeplitz.
    destruct (Nat.leb_spec i (k - 1 - j)), (Nat.leb_spec j (k - 1 - i)); try lia; do 2 f_equal; lia.
Qed.
Lemma dot_last v k : sum (fun i => ^ at_ t (S i) * at_ v (k - 1 - i)) k = sum (fun j => T k j * at_ v j) k.
Proof.
  rewrite (sum_rev _ (fun j => T k j * at_ v j)). apply sum_ext. intros i Hi. rewrite T_last by lia. do 3 f_equal. lia.
Qed.
Lemma B_last y k beta : Binv y k beta -> s + sum (fun j => T k j * ry y k j) k = s * beta.
Proof.
  intros [E _]. rewrite E. f_equal. rewrite (sum_rev _ (fun j => T k j * ry y k j)). apply sum_ext. intros i Hi. rewrite T_last by lia.
  replace (k - 1 - (k - 1 - i))%nat with i by lia. do 3 f_equal. lia.
Qed.
Lemma T_diag k : T k k = s.
Proof. unfold toeplitz. rewrite Nat.leb_refl, Nat.sub_diag. reflexivity. Qed.
(** Extending a vector [v] by [c]. *)
Lemma ext_low (y v v' : list K) k c i : Yinv y k -> (i < k)%nat -> (forall j, (j < k)%nat -> at_ v' j = c * ry y k j + at_ v j) -> at_ v' k = c ->
  sum (fun j => T i j * at_ v' j) (S k) = sum (fun j => T i j * at_ v j) k.
Proof.
  intros Y Hi E Ek. cbn [sum]. rewrite Ek. rewrite (sum_ext _ _ (fun j => c * (T i j * ry y k j) + T i j * at_ v j)) by (intros j Hj; rewrite E by exact Hj; ring).
  rewrite sum_add, sum_mul_l, (Y_rev y k Y i Hi). ring.
Qed.
Lemma ext_last (y v v' : list K) k c beta : Binv y k beta -> (forall j, (j < k)%nat -> at_ v' j = c * ry y k j + at_ v j) -> at_ v' k = c ->
  sum (fun j => T k j * at_ v' j) (S k) = sum (fun j => T k j * at_ v j) k + c * (s * beta).
Proof.
  intros B E Ek. cbn [sum]. rewrite Ek, T_diag. rewrite (sum_ext _ _ (fun j => c * (T k j * ry y k j) + T k j * at_ v j)) by (intros j Hj; rewrite E by exact Hj; ring).
  rewrite sum_add, sum_mul_l, <- (B_last y k beta B). ring.
Qed.
Lemma X_step y x x' k mu beta : Yinv y k -> Binv y k beta -> Xinv x k -> mu * (s * beta) = at_ b k - sum (fun j => T k j * at_ x j) k ->
  (forall j, (j < k)%nat -> at_ x' j = mu * ry y k j + at_ x j) -> at_ x' k = mu -> Xinv x' (S k).
Proof.
  intros Y B X Emu E Ek i Hi. destruct (Nat.eq_dec i k) as [->|N].
  - rewrite (ext_last y x x' k mu beta B E Ek), Emu. ring.
  - rewrite (ext_low y x x' k mu i Y ltac:(lia) E Ek). apply X. lia.
Qed.
Lemma Y_step y y' k alpha beta : Yinv y k -> Binv y k beta -> alpha * (s * beta) = - (sum (fun j => T k j * at_ y j) k + ^ at_ t (S k)) ->
  (forall j, (j < k)%nat -> at_ y' j = alpha * ry y k j + at_ y j) -> at_ y' k = alpha -> Yinv y' (S k) /\ Binv y' (S k) (beta * (1 - alpha * ^ alpha)).
Proof.
  intros Y B Ea E Ek. split; [|split].
  - intros i Hi. destruct (Nat.eq_dec i k) as [->|N].
    + rewrite (ext_last y y y' k alpha beta B E Ek), Ea. ring.
    + rewrite (ext_low y y y' k alpha i Y ltac:(lia) E Ek). apply Y. lia.
  - cbn [sum]. rewrite Ek.
    rewrite (sum_ext _ _ (fun i => ^ alpha * (^ at_ t (S i) * at_ y (k - 1 - i)) + ^ at_ t (S i) * ^ at_ y i))
      by (intros j Hj; rewrite E by exact Hj; rewrite fconj_add, fconj_mul, fconj_conj; ring).
    rewrite sum_add, sum_mul_l, dot_last. destruct B as [B _].
    transitivity (s * beta - ^ alpha * (alpha * (s * beta))); [ring|]. rewrite Ea, B. ring.
  - rewrite fconj_mul, conj_sub, fconj_mul, fconj_conj, fconj_1, (proj2 B). ring.
Qed.

(** One iteration of the program. *)
Definition inv k (st : state) : Prop := length (y_ st) = n /\ length (x_ st) = n /\ length (tmpv_ st) = n /\
  if ok_ st then Xinv (x_ st) k /\ ((k < n)%nat -> Yinv (y_ st) k /\ Binv (y_ st) k (beta_ st * (1 - alpha_ st * ^ alpha_ st)))
  else exists k' v, (k' < n)%nat /\ v k' = 1 /\ forall i, (i <= k')%nat -> sum (fun j => T i j * v j) (S k') = 0.
Lemma step_ok st k : s <> 0 -> length b = n -> (0 < k < n)%nat -> inv k st -> exists st', step t b n s k st = Some st' /\ inv (S k) st'.
Proof.
  intros Hs Hb Hk (Ly & Lx & Lt & I). unfold step. destruct (ok_ st) eqn:Eo.
  2:{ exists st. split; [reflexivity|]. unfold inv. rewrite Eo. auto. }
  destruct I as [X YB]. destruct (YB ltac:(lia)) as [Y B]. set (beta := beta_ st * (1 - alpha_ st * ^ alpha_ st)) in *.
  destruct (feqb F beta 0) eqn:Ez.
  { apply feqb_ok in Ez. eexists. split; [reflexivity|]. unfold inv. cbn [y_ x_ tmpv_ ok_]. repeat (split; [assumption|]).
    exists k, (fun j => if (j <? k)%nat then ry (y_ st) k j else 1). split; [lia|]. split; [destruct (Nat.ltb_spec k k); [lia|reflexivity]|].
    intros i Hi. cbn [sum]. destruct (Nat.ltb_spec k k); [lia|].
    rewrite (sum_ext _ _ (fun j => T i j * ry (y_ st) k j)) by (intros j Hj; destruct (Nat.ltb_spec j k); [reflexivity|lia]).
    destruct (Nat.eq_dec i k) as [->|N].
    - rewrite T_diag. transitivity (s + sum (fun j => T k j * ry (y_ st) k j) k); [ring|]. rewrite (B_last _ _ _ B), Ez. ring.
    - rewrite (Y_rev _ _ Y i) by lia. ring. }
  assert (Nb : s * beta <> 0).
  { apply mul_nz; [exact Hs|]. intros E. rewrite E, (proj2 (feqb_ok F 0 0) eq_refl) in Ez. discriminate. }
  rewrite dot_rev_ok by (fold n; lia). cbn [bind]. rewrite bget_at by lia. cbn [bind].
  destruct (fdiv_nz (at_ b k - sum (fun i => ^ at_ t (S i) * at_ (x_ st) (k - 1 - i)) k) (s * beta) Nb) as (mu & Emu). rewrite Emu. cbn [bind].
  apply fdiv_some in Emu. destruct Emu as [_ Emu].
  destruct (add_rev_ok mu (y_ st) (x_ st) k ltac:(lia) ltac:(lia)) as (x1 & E1 & L1 & P1). rewrite E1. cbn [bind].
  destruct (bput_at x1 k mu ltac:(lia)) as (x2 & E2 & L2 & P2). rewrite E2. cbn [bind].
  assert (X' : Xinv x2 (S k)).
  { apply (X_step (y_ st) (x_ st) x2 k mu beta Y B X).
    - rewrite Emu, dot_last. reflexivity.
    - intros j Hj. rewrite P2, P1. destruct (Nat.eqb_spec j k), (Nat.ltb_spec j k); try lia. reflexivity.
    - rewrite P2, Nat.eqb_refl. reflexivity. }
  destruct (Nat.ltb_spec k (n - 1)) as [Lk|Lk].
  - rewrite dot_rev_ok by (fold n; lia). cbn [bind]. rewrite bget_at by (fold n; lia). cbn [bind].
    destruct (fdiv_nz (- (sum (fun i => ^ at_ t (S i) * at_ (y_ st) (k - 1 - i)) k + ^ at_ t (S k))) (s * beta) Nb) as (al & Eal). rewrite Eal. cbn [bind].
    apply fdiv_some in Eal. destruct Eal as [_ Eal].
    destruct (add_rev_tmp_ok al (y_ st) (tmpv_ st) k ltac:(lia) ltac:(lia)) as (y1 & tv & E3 & L3 & L3' & P3). rewrite E3. cbn [bind fst snd].
    destruct (bput_at y1 k al ltac:(lia)) as (y2 & E4 & L4 & P4). rewrite E4. cbn [bind].
    eexists. split; [reflexivity|]. unfold inv. cbn [y_ x_ tmpv_ ok_ beta_ alpha_]. split; [lia|]. split; [lia|]. split; [lia|].
    split; [exact X'|]. intros _. apply (Y_step (y_ st)); [exact Y|exact B| | |].
    + rewrite Eal, dot_last. reflexivity.
    + intros j Hj. rewrite P4, P3. destruct (Nat.eqb_spec j k), (Nat.ltb_spec j k); try lia. reflexivity.
    + rewrite P4, Nat.eqb_refl. reflexivity.
  - eexists. split; [reflexivity|]. unfold inv. cbn [y_ x_ tmpv_ ok_ beta_ alpha_]. split; [lia|]. split; [lia|]. split; [lia|].
    split; [exact X'|]. intros H. lia.
Qed.
Lemma toepsol_ok (y x : list K) : s <> 0 -> (2 <= n)%nat -> length b = n -> length y = n -> length x = n ->
  exists o, toepsol t b y x = Some o /\
  match o with
  | solved x' => length x' = n /\ forall i, (i < n)%nat -> sum (fun j => T i j * at_ x' j) n = at_ b i
  | not_full_rank => exists k v, (k < n)%nat /\ v k = 1 /\ forall i, (i <= k)%nat -> sum (fun j => T i j * v j) (S k) = 0
  end.
Proof.
  intros Hs Hn Lb Ly Lx. unfold toepsol. rewrite !assert_true by (apply Nat.eqb_eq; fold n; lia). fold n.
  rewrite bget_at by (fold n; lia). cbn [bind]. rewrite fre_real by exact s_real. fold s. rewrite bget_at by (fold n; lia). cbn [bind].
  destruct (fdiv_nz (- at_ t 1) s Hs) as (q & Eq). rewrite Eq. cbn [bind]. apply fdiv_some in Eq. destruct Eq as [_ Eq].
  destruct (bput_at y 0 (^ q) ltac:(lia)) as (y1 & E1 & L1 & P1). rewrite E1. cbn [bind]. rewrite bget_at by lia. cbn [bind].
  destruct (fdiv_nz (at_ b 0) s Hs) as (x0 & Ex). rewrite Ex. cbn [bind]. apply fdiv_some in Ex. destruct Ex as [_ Ex].
  destruct (bput_at x 0 x0 ltac:(lia)) as (x1 & E2 & L2 & P2). rewrite E2. cbn [bind].
  assert (Eq' : ^ q * s = - ^ at_ t 1) by (rewrite <- s_real at 1; rewrite <- fconj_mul, Eq; apply conj_opp).
  match goal with |- context [loop ?G 0 (n - 1) ?S0] => destruct (loop_inv G (fun i st => inv (S i) st) (n - 1) 0%nat S0) as (st & E & I) end.
  - unfold inv. cbn [y_ x_ tmpv_ ok_ beta_ alpha_]. split; [lia|]. split; [lia|]. split; [apply repeat_length|]. split; [|intros _].
    + intros i Hi. assert (i = 0)%nat by lia. subst i. cbn [sum]. rewrite T_diag, P2. cbn [Nat.eqb]. rewrite <- Ex. ring.
    + apply (Y_step [] y1 0 (^ q) 1); [intros i Hi; lia| | | |].
      * split; [cbn; ring|apply fconj_1].
      * cbn [sum]. transitivity (^ q * s); [ring|]. rewrite Eq'. ring.
      * intros j Hj. lia.
      * rewrite P1. reflexivity.
  - intros i st [_ Hi] I. apply (step_ok st (S i) Hs Lb ltac:(lia)) in I. destruct I as (st' & E & I). exists st'. split; [exact E|]. rewrite Nat.add_1_r. exact I.
  - rewrite E. cbn [bind]. destruct I as (I1 & I2 & _ & I3). eexists. split; [reflexivity|]. destruct (ok_ st).
    + split; [exact I2|]. destruct I3 as [X _]. replace n with (S (0 + (n - 1)))%nat at 2 by lia. intros i Hi. rewrite <- (X i) by lia. f_equal. lia.
    + exact I3.
Qed.
End Levinson.
End P.
