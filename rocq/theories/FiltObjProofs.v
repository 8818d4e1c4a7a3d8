(** Proofs about filter objects. *)
From Coq Require Import ZArith List Lia Bool Arith.
From Verif Require Import Base Fir FirProofs Iir IirProofs FiltObj.
Import ListNotations.
Local Open Scope nat_scope.

Section Lists.
Context {A : Type}.
Implicit Types (l : list (option A)).
Definition cnt (f : A -> nat) l : nat := fold_right (fun o n => match o with Some x => f x | None => 0 end + n) 0 l.
Definition wt (f : A -> nat) (o : option A) : nat := match o with Some x => f x | None => 0 end.
Lemma cnt_app f l l' : cnt f (l ++ l') = cnt f l + cnt f l'.
Proof. induction l as [|o l IH]; [reflexivity|]. unfold cnt in *. cbn [app fold_right]. rewrite IH. lia. Qed.
Lemma cnt_lset f : forall l i o o', nth_error l i = Some o -> cnt f (lset l i o') + wt f o = cnt f l + wt f o'.
Proof.
  induction l as [|z l IH]; intros [|i] o o' E; try discriminate; cbn in E.
  - injection E as ->. cbn. unfold wt. lia.
  - cbn. specialize (IH i o o' E). unfold cnt in *. lia.
Qed.
Lemma cnt_ge f l i x : nth_error l i = Some (Some x) -> f x <= cnt f l.
Proof. revert i. induction l as [|z l IH]; intros [|i] E; try discriminate; cbn in *; [injection E as ->; lia|]. specialize (IH i E). unfold cnt in *. lia. Qed.
Lemma cnt_ge2 f l i j x y : i <> j -> nth_error l i = Some (Some x) -> nth_error l j = Some (Some y) -> f x + f y <= cnt f l.
Proof.
  revert i j. induction l as [|z l IH]; intros [|i] [|j] N E F; try discriminate; try congruence; cbn in *.
  - injection E as ->. pose proof (cnt_ge f l j y F). unfold cnt in *. lia.
  - injection F as ->. pose proof (cnt_ge f l i x E). unfold cnt in *. lia.
  - specialize (IH i j ltac:(congruence) E F). unfold cnt in *. lia.
Qed.
Lemma cnt_zero f l : (forall x, f x > 0) -> cnt f l = 0 -> Forall (eq None) l.
Proof. intros P. induction l as [|[x|] l IH]; cbn; intros E; constructor; [specialize (P x); lia| |reflexivity|]; apply IH; unfold cnt; lia. Qed.
Lemma cnt_none f l : (forall i x, nth_error l i = Some (Some x) -> f x = 0) -> cnt f l = 0.
Proof.
  induction l as [|[x|] l IH]; intros H; cbn; [reflexivity| |]; fold (cnt f l).
  - rewrite (H 0 x eq_refl). apply IH. intros i. exact (H (S i)).
  - apply IH. intros i. exact (H (S i)).
Qed.
Lemma at_some l i x : at_ l i = Some x <-> nth_error l i = Some (Some x).
Proof. unfold at_. destruct (nth_error l i) as [[y|]|]; split; congruence. Qed.
Lemma at_lset l i j o : j < length l -> at_ (lset l j o) i = if i =? j then o else at_ l i.
Proof.
  unfold at_. revert i j. induction l as [|z l IH]; intros i [|j] H; cbn in *; try lia.
  - destruct i; cbn; [destruct o; reflexivity|reflexivity].
  - destruct i; cbn; [reflexivity|]. apply IH. lia.
Qed.
Lemma at_lt l i x : at_ l i = Some x -> i < length l.
Proof. rewrite at_some. intros E. apply nth_error_Some. congruence. Qed.
Lemma at_app l l' i : at_ (l ++ l') i = if i <? length l then at_ l i else at_ l' (i - length l).
Proof. unfold at_. destruct (Nat.ltb_spec i (length l)); [rewrite nth_error_app1 by lia|rewrite nth_error_app2 by lia]; reflexivity. Qed.
Lemma lset_len l i o : length (lset l i o) = length l.
Proof. revert i. induction l as [|z l IH]; intros [|i]; cbn; auto. Qed.
Lemma cnt_lset_at f l i x o' : at_ l i = Some x -> cnt f (lset l i o') + f x = cnt f l + wt f o'.
Proof. rewrite at_some. intros E. exact (cnt_lset f l i (Some x) o' E). Qed.
Lemma cnt_ge_at f l i x : at_ l i = Some x -> f x <= cnt f l.
Proof. rewrite at_some. apply cnt_ge. Qed.
Lemma cnt_ge2_at f l i j x y : i <> j -> at_ l i = Some x -> at_ l j = Some y -> f x + f y <= cnt f l.
Proof. rewrite !at_some. apply cnt_ge2. Qed.
Lemma cnt_none_at f l : (forall i x, at_ l i = Some x -> f x = 0) -> cnt f l = 0.
Proof. intros H. apply cnt_none. intros i x E. apply (H i). apply at_some. exact E. Qed.
Lemma all_none l : (forall i, at_ l i = None) -> Forall (eq None) l.
Proof. intros H. apply Forall_forall. intros o I. destruct (In_nth_error _ _ I) as [i E]. specialize (H i). unfold at_ in H. rewrite E in H. destruct o; congruence. Qed.
Lemma none_all l i : Forall (eq None) l -> at_ l i = None.
Proof. intros F. unfold at_. destruct (nth_error l i) as [o|] eqn:E; [|reflexivity]. rewrite Forall_forall in F. rewrite <- (F o (nth_error_In _ _ E)). reflexivity. Qed.
End Lists.

Section FirObj.
Context {K : CRing} (save : bool) (S : symmetry).
Definition one (p q : nat) : nat := if q =? p then 1 else 0.
Definition vw (b : nat) (x : nat * bk) : nat := one b (kb (snd x)) + one b (sb (snd x)).
Lemma one_same p : one p p = 1. Proof. unfold one. rewrite Nat.eqb_refl. reflexivity. Qed.
Lemma one_diff p q : q <> p -> one p q = 0. Proof. intros H. unfold one. rewrite (proj2 (Nat.eqb_neq _ _)); congruence. Qed.

Record hinv (R : nat -> nat) (st : fstate K) : Prop := {
  hi_b : forall q, match at_ (backs st) q with Some (c, _) => c = R q /\ 0 < c /\ (save = true -> c = 1) | None => R q = 0 end;
  hi_v : forall b, match at_ (vecs st) b with Some (c, _) => c = cnt (vw b) (backs st) /\ 0 < c | None => cnt (vw b) (backs st) = 0 end;
  hi_s : forall q x, at_ (backs st) q = Some x -> cnt (vw (sb (snd x))) (backs st) = 1
}.
Local Notation tk := ((list K * nat * nat) * list K)%type.
Definition fits (t : tk) (f : fir K) : Prop :=
  let '((h, i, d), past) := t in good h past f /\ Fir.input_size (base f) = i /\ decimation (base f) = d /\ (save = false -> past = []).
Definition valid (st : fstate K) (p : nat) (t : tk) : Prop := exists f, load st p = Some f /\ fits t f.

Lemma live_vec R st q x b : hinv R st -> at_ (backs st) q = Some x -> b = kb (snd x) \/ b = sb (snd x) -> exists c l, at_ (vecs st) b = Some (c, l) /\ c = cnt (vw b) (backs st) /\ 0 < c.
Proof.
  intros H E Hb. pose proof (hi_v _ _ H b) as V. pose proof (cnt_ge_at (vw b) _ _ _ E) as G. unfold vw at 1 in G.
  destruct (at_ (vecs st) b) as [[c l]|]; [eauto|]. destruct Hb as [-> | ->]; rewrite one_same in G; lia.
Qed.
Lemma hinv_ext R R' st : (forall q, R q = R' q) -> hinv R st -> hinv R' st.
Proof. intros E H. constructor; [|apply H|apply H]. intros q. rewrite <- E. apply H. Qed.
Lemma hinv_live R st q : hinv R st -> 0 < R q -> exists x, at_ (backs st) q = Some x.
Proof. intros H P. pose proof (hi_b _ _ H q) as B. destruct (at_ (backs st) q) as [x|]; [eauto|lia]. Qed.
(** kb and sb of backends with different or equal addresses. *)
Lemma sb_kb R st q x q' x' : hinv R st -> at_ (backs st) q = Some x -> at_ (backs st) q' = Some x' -> kb (snd x') <> sb (snd x).
Proof.
  intros H E E' N. pose proof (hi_s _ _ H q x E) as O. destruct (Nat.eq_dec q q') as [<-|D].
  - rewrite E in E'. injection E' as <-. pose proof (cnt_ge_at (vw (sb (snd x))) _ _ _ E) as G. unfold vw at 1 in G. rewrite N, one_same in G. lia.
  - pose proof (cnt_ge2_at (vw (sb (snd x))) _ _ _ _ _ D E E') as G. unfold vw at 1 2 in G. rewrite N, !one_same in G. lia.
Qed.
Lemma sb_sb R st q x q' x' : hinv R st -> q <> q' -> at_ (backs st) q = Some x -> at_ (backs st) q' = Some x' -> sb (snd x') <> sb (snd x).
Proof.
  intros H D E E' N. pose proof (hi_s _ _ H q x E) as O. pose proof (cnt_ge2_at (vw (sb (snd x))) _ _ _ _ _ D E E') as G. unfold vw at 1 2 in G. rewrite N, !one_same in G. lia.
Qed.

Lemma load_some R st q x : hinv R st -> at_ (backs st) q = Some x -> exists ck lk ls, at_ (vecs st) (kb (snd x)) = Some (ck, lk) /\ at_ (vecs st) (sb (snd x)) = Some (1, ls) /\
  load st q = Some {| base := bbase (snd x); skip_ := bskip (snd x); kernel_ := lk; state_ := ls; state_saved_ := bsaved (snd x) |}.
Proof.
  intros H E. destruct (live_vec R st q x _ H E (or_introl eq_refl)) as (ck & lk & Ek & _ & _).
  destruct (live_vec R st q x _ H E (or_intror eq_refl)) as (cs & ls & Es & Cs & _). rewrite (hi_s _ _ H q x E) in Cs. subst cs.
  exists ck, lk, ls. split; [exact Ek|]. split; [exact Es|]. unfold load. rewrite E. cbn [bind snd]. rewrite Ek. cbn [bind]. rewrite Es. reflexivity.
Qed.

(** Writing the members of a backend. *)
Lemma store_ok R st p f0 f : hinv R st -> load st p = Some f0 -> base f = base f0 -> kernel_ f = kernel_ f0 ->
  exists st', store st p f = Some st' /\ fvars st' = fvars st /\ hinv R st' /\ load st' p = Some f /\ (forall q, q <> p -> load st' q = load st q).
Proof.
  intros H L Eb Ek. destruct (at_ (backs st) p) as [[c k]|] eqn:E; [|unfold load in L; rewrite E in L; discriminate].
  destruct (load_some R st p _ H E) as (ck & lk & ls & Vk & Vs & L'). cbn [snd] in *. rewrite L' in L. injection L as <-. cbn [base kernel_] in *.
  unfold store. rewrite E. cbn [bind snd fst]. rewrite Vs. cbn [bind fst]. eexists. split; [reflexivity|]. split; [reflexivity|].
  assert (Pb : p < length (backs st)) by (eapply at_lt; exact E). assert (Ps : sb k < length (vecs st)) by (eapply at_lt; exact Vs).
  assert (Cn : forall b, cnt (vw b) (lset (backs st) p (Some (c, Bk (bbase k) (skip_ f) (kb k) (sb k) (state_saved_ f)))) = cnt (vw b) (backs st)).
  { intros b. pose proof (cnt_lset_at (vw b) _ _ _ (Some (c, Bk (bbase k) (skip_ f) (kb k) (sb k) (state_saved_ f))) E) as G. unfold wt, vw at 2 4 in G. cbn [snd kb sb] in G. lia. }
  assert (Nk : kb k <> sb k) by (apply (sb_kb R st p (c, k) p (c, k) H E E)).
  split; [constructor; cbn [backs vecs]|split].
  - intros q. rewrite at_lset by exact Pb. pose proof (hi_b _ _ H q) as B. destruct (Nat.eqb_spec q p) as [-> |_]; [rewrite E in B; exact B|exact B].
  - intros b. rewrite at_lset by exact Ps. rewrite Cn. pose proof (hi_v _ _ H b) as V. destruct (Nat.eqb_spec b (sb k)) as [-> |_]; [rewrite Vs in V; exact V|exact V].
  - intros q x. rewrite at_lset by exact Pb. rewrite Cn. destruct (Nat.eqb_spec q p) as [-> |_]; [|apply H]. intros [= <-]. cbn [snd sb]. apply (hi_s _ _ H p (c, k) E).
  - unfold load. cbn [backs vecs]. rewrite at_lset by exact Pb. rewrite Nat.eqb_refl. cbn [bind snd kb sb bbase bskip bsaved]. rewrite !at_lset by exact Ps.
    rewrite (proj2 (Nat.eqb_neq _ _) Nk), Vk, Nat.eqb_refl. cbn [bind snd]. rewrite <- Eb, <- Ek. destruct f; reflexivity.
  - intros q Nq. unfold load. cbn [backs vecs]. rewrite at_lset by exact Pb. rewrite (proj2 (Nat.eqb_neq _ _) Nq).
    destruct (at_ (backs st) q) as [x|] eqn:Eq; [|reflexivity]. cbn [bind]. rewrite !at_lset by exact Ps.
    pose proof (sb_kb R st p (c, k) q x H E Eq) as N1. pose proof (sb_sb R st p (c, k) q x H ltac:(congruence) E Eq) as N2. cbn [snd] in N1, N2.
    rewrite (proj2 (Nat.eqb_neq _ _) N1), (proj2 (Nat.eqb_neq _ _) N2). reflexivity.
Qed.

(** A new shared_ptr to an existing backend. *)
Lemma share_ok R st p : save = false -> hinv R st -> 0 < R p ->
  exists st', share st p = Some st' /\ fvars st' = fvars st /\ hinv (fun q => R q + one q p) st' /\ (forall q, load st' q = load st q).
Proof.
  intros Sv H P. destruct (hinv_live R st p H P) as [[c k] E]. unfold share. rewrite E. cbn [bind fst snd]. eexists. split; [reflexivity|]. split; [reflexivity|].
  assert (Pb : p < length (backs st)) by (eapply at_lt; exact E).
  assert (Cn : forall b, cnt (vw b) (lset (backs st) p (Some (c + 1, k))) = cnt (vw b) (backs st)).
  { intros b. pose proof (cnt_lset_at (vw b) _ _ _ (Some (c + 1, k)) E) as G. unfold wt, vw at 2 4 in G. cbn [snd] in G. lia. }
  split; [constructor; cbn [backs vecs]|].
  - intros q. rewrite at_lset by exact Pb. pose proof (hi_b _ _ H q) as B. destruct (Nat.eqb_spec q p) as [-> |N].
    + rewrite E in B. rewrite one_same. split; [lia|]. split; [lia|]. congruence.
    + rewrite one_diff by congruence. rewrite Nat.add_0_r. exact B.
  - intros b. rewrite Cn. apply H.
  - intros q x. rewrite Cn, at_lset by exact Pb. destruct (Nat.eqb_spec q p) as [-> |_]; [|apply H]. intros [= <-]. apply (hi_s _ _ H p (c, k) E).
  - intros q. unfold load. cbn [backs vecs]. rewrite at_lset by exact Pb. destruct (Nat.eqb_spec q p) as [-> |_]; [|reflexivity]. rewrite E. reflexivity.
Qed.

Lemma vec_beyond R st b : hinv R st -> length (vecs st) <= b -> cnt (vw b) (backs st) = 0.
Proof. intros H L. pose proof (hi_v _ _ H b) as V. destruct (at_ (vecs st) b) as [[c l]|] eqn:E; [apply at_lt in E; lia|exact V]. Qed.
Lemma load_lt R st q f : hinv R st -> load st q = Some f -> q < length (backs st).
Proof. intros H L. unfold load in L. destruct (at_ (backs st) q) eqn:E; [eapply at_lt; exact E|discriminate]. Qed.

(** A copy of a backend. *)
Lemma clone_ok R st p f : hinv R st -> load st p = Some f ->
  exists st', clone st p = Some (st', length (backs st)) /\ fvars st' = fvars st /\ hinv (fun q => R q + one q (length (backs st))) st' /\ load st' (length (backs st)) = Some f /\
    (forall q g, load st q = Some g -> load st' q = Some g).
Proof.
  intros H L. destruct (at_ (backs st) p) as [[c k]|] eqn:E; [|unfold load in L; rewrite E in L; discriminate].
  destruct (load_some R st p _ H E) as (ck & lk & ls & Vk & Vs & L'). cbn [snd] in *. rewrite L' in L. injection L as <-.
  unfold clone. rewrite E. cbn [bind snd]. rewrite Vk. cbn [bind]. rewrite Vs. cbn [bind fst snd]. eexists. split; [reflexivity|]. split; [reflexivity|].
  assert (Pk : kb k < length (vecs st)) by (eapply at_lt; exact Vk). assert (Pb : p < length (backs st)) by (eapply at_lt; exact E).
  set (n := length (vecs st)) in *. set (nb := Some (1, Bk (bbase k) (bskip k) (kb k) n (bsaved k))).
  assert (Cn : forall b, cnt (vw b) (backs st ++ [nb]) = cnt (vw b) (backs st) + one b (kb k) + one b n).
  { intros b. rewrite cnt_app. cbn. unfold vw at 2. cbn [snd kb sb]. lia. }
  assert (Av : forall b, at_ (lset (vecs st) (kb k) (Some (ck + 1, lk)) ++ [Some (1, ls)]) b =
                 if b =? kb k then Some (ck + 1, lk) else if b =? n then Some (1, ls) else at_ (vecs st) b).
  { intros b. rewrite at_app, lset_len, at_lset by exact Pk. fold n. destruct (Nat.ltb_spec b n); destruct (Nat.eqb_spec b (kb k)); destruct (Nat.eqb_spec b n); try lia; try reflexivity.
    - subst b. rewrite Nat.sub_diag. reflexivity.
    - destruct (at_ (vecs st) b) eqn:Eb; [apply at_lt in Eb; fold n in Eb; lia|]. unfold at_. rewrite (proj2 (nth_error_None _ _)); [reflexivity|]. cbn. lia. }
  assert (Ab : forall q, at_ (backs st ++ [nb]) q = if q =? length (backs st) then nb else at_ (backs st) q).
  { intros q. rewrite at_app. destruct (Nat.ltb_spec q (length (backs st))); destruct (Nat.eqb_spec q (length (backs st))); try lia; try reflexivity.
    - subst q. rewrite Nat.sub_diag. reflexivity.
    - destruct (at_ (backs st) q) eqn:Eq; [apply at_lt in Eq; lia|]. unfold at_. rewrite (proj2 (nth_error_None _ _)); [reflexivity|]. cbn. lia. }
  split; [constructor; cbn [backs vecs]|split].
  - intros q. rewrite Ab. pose proof (hi_b _ _ H q) as B. destruct (Nat.eqb_spec q (length (backs st))) as [-> |N].
    + rewrite one_same. cbn. destruct (at_ (backs st) (length (backs st))) as [x|] eqn:Eq; [apply at_lt in Eq; lia|]. split; [lia|]. split; [lia|reflexivity].
    + rewrite one_diff by congruence. rewrite Nat.add_0_r. exact B.
  - intros b. rewrite Av, Cn. pose proof (hi_v _ _ H b) as V. destruct (Nat.eqb_spec b (kb k)) as [-> |N1].
    + rewrite Vk in V. rewrite one_same, one_diff by lia. lia.
    + rewrite (one_diff b (kb k)) by congruence. destruct (Nat.eqb_spec b n) as [-> |N2].
      * rewrite one_same. rewrite (vec_beyond R st n H) by lia. lia.
      * rewrite one_diff by congruence. rewrite !Nat.add_0_r. exact V.
  - intros q x. rewrite Ab, Cn. destruct (Nat.eqb_spec q (length (backs st))) as [-> |N].
    + intros [= <-]. cbn [snd sb]. rewrite one_same, one_diff by lia. rewrite (vec_beyond R st n H) by lia. reflexivity.
    + intros Eq. rewrite (hi_s _ _ H q x Eq). rewrite !one_diff; [reflexivity| |].
      * pose proof (load_some R st q x H Eq) as (a1 & a2 & a3 & _ & Vq & _). apply at_lt in Vq. fold n in Vq. lia.
      * apply (sb_kb R st q x p (c, k) H Eq E).
  - unfold load. cbn [backs vecs]. rewrite Ab, Nat.eqb_refl. cbn [bind nb snd kb sb bbase bskip bsaved]. rewrite !Av, Nat.eqb_refl. cbn [bind].
    rewrite (proj2 (Nat.eqb_neq n (kb k))) by lia. rewrite Nat.eqb_refl. reflexivity.
  - intros q g Lq. unfold load in *. cbn [backs vecs]. rewrite Ab. destruct (at_ (backs st) q) as [x|] eqn:Eq; [|discriminate]. pose proof (at_lt _ _ _ Eq) as Lt.
    rewrite (proj2 (Nat.eqb_neq _ _)) by lia. cbn [bind] in *. rewrite !Av.
    pose proof (load_some R st q x H Eq) as (a1 & a2 & a3 & Vk' & Vq & _). pose proof (at_lt _ _ _ Vk') as L1. pose proof (at_lt _ _ _ Vq) as L2. fold n in L1, L2.
    rewrite (proj2 (Nat.eqb_neq (sb (snd x)) (kb k))) by (intros X; apply (sb_kb R st q x p (c, k) H Eq E); symmetry; exact X).
    rewrite (proj2 (Nat.eqb_neq (sb (snd x)) n)) by lia. rewrite (proj2 (Nat.eqb_neq (kb (snd x)) n)) by lia.
    destruct (Nat.eqb_spec (kb (snd x)) (kb k)) as [Ex|_]; [|exact Lq]. rewrite Ex, Vk in Lq. exact Lq.
Qed.

(** The end of a shared_ptr. *)
Lemma release_ok R R' st p : hinv R' st -> (forall q, R' q = R q + one q p) ->
  exists st', release st p = Some st' /\ fvars st' = fvars st /\ hinv R st' /\ (forall q, 0 < R q -> load st' q = load st q).
Proof.
  intros H ER. assert (P : 0 < R' p) by (rewrite ER, one_same; lia). destruct (hinv_live R' st p H P) as [[c k] E]. unfold release. rewrite E. cbn [bind fst snd].
  pose proof (hi_b _ _ H p) as B. rewrite E in B. destruct B as (Bc & _ & Bs).
  assert (Pb : p < length (backs st)) by (eapply at_lt; exact E). destruct (Nat.eqb_spec c 1) as [-> |Nc].
  - destruct (load_some R' st p _ H E) as (ck & lk & ls & Vk & Vs & _). cbn [snd] in *. unfold drop_vec at 1. rewrite Vs. cbn [bind fst Nat.eqb].
    assert (Ps : sb k < length (vecs st)) by (eapply at_lt; exact Vs). assert (Pk : kb k < length (vecs st)) by (eapply at_lt; exact Vk).
    assert (Nk : kb k <> sb k) by (apply (sb_kb R' st p (1, k) p (1, k) H E E)).
    unfold drop_vec. rewrite at_lset by exact Ps. rewrite (proj2 (Nat.eqb_neq _ _) Nk), Vk. cbn [bind fst snd]. eexists. split; [reflexivity|]. split; [reflexivity|].
    assert (R0 : R p = 0) by (specialize (ER p); rewrite one_same in ER; lia).
    assert (Cn : forall b, cnt (vw b) (lset (backs st) p None) + (one b (kb k) + one b (sb k)) = cnt (vw b) (backs st)).
    { intros b. pose proof (cnt_lset_at (vw b) _ _ _ None E) as G. unfold wt, vw at 2 in G. cbn [snd] in G. lia. }
    assert (Av : forall b, at_ (lset (lset (vecs st) (sb k) None) (kb k) (if ck =? 1 then None else Some (ck - 1, lk))) b =
                   if b =? kb k then (if ck =? 1 then None else Some (ck - 1, lk)) else if b =? sb k then None else at_ (vecs st) b).
    { intros b. rewrite at_lset by (rewrite lset_len; exact Pk). rewrite at_lset by exact Ps. reflexivity. }
    split; [constructor; cbn [backs vecs]|].
    + intros q. rewrite at_lset by exact Pb. pose proof (hi_b _ _ H q) as B. rewrite ER in B. destruct (Nat.eqb_spec q p) as [-> |N]; [exact R0|].
      rewrite one_diff, Nat.add_0_r in B by congruence. exact B.
    + intros b. rewrite Av. specialize (Cn b). pose proof (hi_v _ _ H b) as V. destruct (Nat.eqb_spec b (kb k)) as [-> |N1].
      * rewrite Vk in V. rewrite one_same, one_diff in Cn by congruence. destruct (Nat.eqb_spec ck 1); lia.
      * rewrite (one_diff b (kb k)) in Cn by congruence. destruct (Nat.eqb_spec b (sb k)) as [-> |N2].
        -- rewrite Vs in V. rewrite one_same in Cn. lia.
        -- rewrite one_diff, !Nat.add_0_r in Cn by congruence. rewrite Cn. exact V.
    + intros q x. rewrite at_lset by exact Pb. destruct (Nat.eqb_spec q p) as [-> |N]; [discriminate|]. intros Eq. pose proof (hi_s _ _ H q x Eq) as O. specialize (Cn (sb (snd x))).
      rewrite !one_diff in Cn; [lia| |].
      * intros X. exact (sb_sb R' st q x p (1, k) H N Eq E X).
      * intros X. exact (sb_kb R' st q x p (1, k) H Eq E X).
    + intros q Hq. assert (N : q <> p) by (intros ->; lia). unfold load. cbn [backs vecs]. rewrite at_lset by exact Pb. rewrite (proj2 (Nat.eqb_neq _ _) N).
      destruct (at_ (backs st) q) as [x|] eqn:Eq; [|reflexivity]. cbn [bind]. rewrite !Av.
      rewrite (proj2 (Nat.eqb_neq (sb (snd x)) (kb k))) by (intros X; apply (sb_kb R' st q x p (1, k) H Eq E); symmetry; exact X).
      rewrite (proj2 (Nat.eqb_neq (sb (snd x)) (sb k))) by (apply (sb_sb R' st p (1, k) q x H ltac:(congruence) E Eq)).
      rewrite (proj2 (Nat.eqb_neq (kb (snd x)) (sb k))) by (apply (sb_kb R' st p (1, k) q x H E Eq)).
      destruct (Nat.eqb_spec (kb (snd x)) (kb k)) as [Ex|_]; [|reflexivity]. rewrite Ex, Vk.
      pose proof (hi_v _ _ H (kb k)) as V. rewrite Vk in V. pose proof (cnt_ge2_at (vw (kb k)) _ _ _ _ _ (not_eq_sym N) E Eq) as G. unfold vw at 1 2 in G. cbn [snd] in G.
      rewrite Ex, !one_same in G. rewrite (proj2 (Nat.eqb_neq ck 1)) by lia. reflexivity.
  - eexists. split; [reflexivity|]. split; [reflexivity|].
    assert (Cn : forall b, cnt (vw b) (lset (backs st) p (Some (c - 1, k))) = cnt (vw b) (backs st)).
    { intros b. pose proof (cnt_lset_at (vw b) _ _ _ (Some (c - 1, k)) E) as G. unfold wt, vw at 2 4 in G. cbn [snd] in G. lia. }
    split; [constructor; cbn [backs vecs]|].
    + intros q. rewrite at_lset by exact Pb. pose proof (hi_b _ _ H q) as B. rewrite ER in B. destruct (Nat.eqb_spec q p) as [-> |N].
      * rewrite E, one_same in B. split; [lia|]. split; [lia|]. intros Sv. specialize (Bs Sv). lia.
      * rewrite one_diff, Nat.add_0_r in B by congruence. exact B.
    + intros b. rewrite Cn. apply H.
    + intros q x. rewrite Cn, at_lset by exact Pb. destruct (Nat.eqb_spec q p) as [-> |_]; [|apply H]. intros [= <-]. apply (hi_s _ _ H p (c, k) E).
    + intros q _. unfold load. cbn [backs vecs]. rewrite at_lset by exact Pb. destruct (Nat.eqb_spec q p) as [-> |_]; [|reflexivity]. rewrite E. reflexivity.
Qed.

(** A new filter. *)
Lemma new_ok R st (f : fir K) : hinv R st ->
  let n := length (vecs st) in let p := length (backs st) in
  let st' := FState (fvars st ++ [Some p]) (backs st ++ [Some (1, Bk (base f) (skip_ f) n (n + 1) (state_saved_ f))]) (vecs st ++ [Some (1, kernel_ f); Some (1, state_ f)]) in
  hinv (fun q => R q + one q p) st' /\ load st' p = Some f /\ (forall q g, load st q = Some g -> load st' q = Some g).
Proof.
  intros H n p st'. set (nb := Some (1, Bk (base f) (skip_ f) n (n + 1) (state_saved_ f))) in *.
  assert (Cn : forall b, cnt (vw b) (backs st ++ [nb]) = cnt (vw b) (backs st) + one b n + one b (n + 1)).
  { intros b. rewrite cnt_app. cbn. unfold vw at 2. cbn [snd kb sb]. lia. }
  assert (Av : forall b, at_ (vecs st ++ [Some (1, kernel_ f); Some (1, state_ f)]) b = if b =? n then Some (1, kernel_ f) else if b =? n + 1 then Some (1, state_ f) else at_ (vecs st) b).
  { intros b. rewrite at_app. fold n. destruct (Nat.ltb_spec b n); destruct (Nat.eqb_spec b n); destruct (Nat.eqb_spec b (n + 1)); try lia; try reflexivity.
    - subst b. rewrite Nat.sub_diag. reflexivity.
    - subst b. replace (n + 1 - n) with 1 by lia. reflexivity.
    - destruct (at_ (vecs st) b) eqn:Eb; [apply at_lt in Eb; fold n in Eb; lia|]. unfold at_. rewrite (proj2 (nth_error_None _ _)); [reflexivity|]. cbn. lia. }
  assert (Ab : forall q, at_ (backs st ++ [nb]) q = if q =? p then nb else at_ (backs st) q).
  { intros q. rewrite at_app. fold p. destruct (Nat.ltb_spec q p); destruct (Nat.eqb_spec q p); try lia; try reflexivity.
    - subst q. rewrite Nat.sub_diag. reflexivity.
    - destruct (at_ (backs st) q) eqn:Eq; [apply at_lt in Eq; fold p in Eq; lia|]. unfold at_. rewrite (proj2 (nth_error_None _ _)); [reflexivity|]. cbn. lia. }
  split; [constructor; cbn [backs vecs st']|split].
  - intros q. rewrite Ab. pose proof (hi_b _ _ H q) as B. destruct (Nat.eqb_spec q p) as [-> |N].
    + rewrite one_same. cbn. destruct (at_ (backs st) p) as [x|] eqn:Eq; [apply at_lt in Eq; fold p in Eq; lia|]. split; [lia|]. split; [lia|reflexivity].
    + rewrite one_diff by congruence. rewrite Nat.add_0_r. exact B.
  - intros b. rewrite Av, Cn. pose proof (hi_v _ _ H b) as V. destruct (Nat.eqb_spec b n) as [-> |N1].
    + rewrite one_same, one_diff by lia. rewrite (vec_beyond R st n H) by (unfold n; lia). lia.
    + rewrite (one_diff b n) by congruence. destruct (Nat.eqb_spec b (n + 1)) as [-> |N2].
      * rewrite one_same. rewrite (vec_beyond R st (n + 1) H) by (unfold n; lia). lia.
      * rewrite one_diff by congruence. rewrite !Nat.add_0_r. exact V.
  - intros q x. rewrite Ab, Cn. destruct (Nat.eqb_spec q p) as [-> |N].
    + intros [= <-]. cbn [snd sb]. rewrite one_same, one_diff by lia. rewrite (vec_beyond R st (n + 1) H) by (unfold n; lia). reflexivity.
    + intros Eq. rewrite (hi_s _ _ H q x Eq). pose proof (load_some R st q x H Eq) as (a1 & a2 & a3 & _ & Vq & _). apply at_lt in Vq. fold n in Vq. rewrite !one_diff by lia. reflexivity.
  - unfold load. cbn [backs vecs st']. rewrite Ab, Nat.eqb_refl. cbn [bind nb snd kb sb bbase bskip bsaved]. rewrite !Av, !Nat.eqb_refl. cbn [bind].
    rewrite (proj2 (Nat.eqb_neq (n + 1) n)) by lia. cbn [bind snd]. destruct f; reflexivity.
  - intros q g Lq. unfold load in *. cbn [backs vecs st']. rewrite Ab. destruct (at_ (backs st) q) as [x|] eqn:Eq; [|discriminate]. pose proof (at_lt _ _ _ Eq) as Lt. fold p in Lt.
    rewrite (proj2 (Nat.eqb_neq _ _)) by lia. cbn [bind] in *. rewrite !Av.
    pose proof (load_some R st q x H Eq) as (a1 & a2 & a3 & Vk' & Vq & _). pose proof (at_lt _ _ _ Vk') as L1. pose proof (at_lt _ _ _ Vq) as L2. fold n in L1, L2.
    rewrite !(proj2 (Nat.eqb_neq (sb (snd x)) _)) by lia. rewrite !(proj2 (Nat.eqb_neq (kb (snd x)) _)) by lia. exact Lq.
Qed.
End FirObj.

Section FirRun.
Context {K : CRing} (save : bool) (S : symmetry).
Local Notation fits := (fits (K := K) save).
Local Notation hinv := (hinv (K := K) save).
Local Notation tk := ((list K * nat * nat) * list K)%type.
Definition refs (l : list (option nat)) (q : nat) : nat := cnt (fun p => one q p) l.
Lemma refs_snoc l p q : refs (l ++ [Some p]) q = refs l q + one q p.
Proof. unfold refs. rewrite cnt_app. cbn. lia. Qed.
Lemma refs_lset l v p o q : at_ l v = Some p -> refs (lset l v o) q + one q p = refs l q + match o with Some p' => one q p' | None => 0 end.
Proof. intros E. unfold refs. rewrite (cnt_lset_at _ _ _ _ o E). destruct o; reflexivity. Qed.
Lemma refs_pos l v p : at_ l v = Some p -> 0 < refs l p.
Proof. intros E. pose proof (cnt_ge_at (fun q => one p q) _ _ _ E) as G. cbn in G. rewrite one_same in G. exact G. Qed.

Definition agree (st : fstate K) (s : list (option tk)) : Prop :=
  length (fvars st) = length s /\
  forall v, match at_ s v with
            | Some t => exists p f, at_ (fvars st) v = Some p /\ load st p = Some f /\ fits t f
            | None => at_ (fvars st) v = None
            end.
Definition inv (st : fstate K) (s : list (option tk)) : Prop := hinv (refs (fvars st)) st /\ agree st s.

Lemma at_snoc {A} (l : list (option A)) o v : at_ (l ++ [o]) v = if v =? length l then o else at_ l v.
Proof.
  rewrite at_app. destruct (Nat.ltb_spec v (length l)); destruct (Nat.eqb_spec v (length l)); try lia; try reflexivity.
  - subst v. rewrite Nat.sub_diag. unfold at_. cbn. destruct o; reflexivity.
  - destruct (at_ l v) eqn:E; [apply at_lt in E; lia|]. unfold at_. rewrite (proj2 (nth_error_None _ _)); [reflexivity|]. cbn. lia.
Qed.
Lemma unique_var st v v' p : save = true -> hinv (refs (fvars st)) st -> at_ (fvars st) v = Some p -> at_ (fvars st) v' = Some p -> v = v'.
Proof.
  intros Sv H E E'. destruct (Nat.eq_dec v v') as [|N]; [assumption|]. pose proof (cnt_ge2_at (fun q => one p q) _ _ _ _ _ N E E') as G. cbn in G. rewrite one_same in G.
  fold (refs (fvars st) p) in G. pose proof (hi_b _ _ _ H p) as B. destruct (at_ (backs st) p) as [[c k]|]; [|lia]. destruct B as (B1 & B2 & B3). specialize (B3 Sv). lia.
Qed.

Lemma lset_same {A} : forall (l : list A) i x, nth_error l i = Some x -> lset l i x = l.
Proof. induction l as [|y l IH]; intros [|i] x E; try discriminate; cbn in *; [congruence|]. rewrite IH by exact E. reflexivity. Qed.
Lemma skipn_nth_err {A} n : forall (l : list A) i, nth_error (skipn n l) i = nth_error l (n + i).
Proof. induction n as [|n IH]; intros [|x l] i; cbn; try reflexivity; [destruct i; reflexivity|apply IH]. Qed.
Definition mstep := fstep (K := K) save S.
Definition sstep := track (fir_make (K := K) S) (fir_accepts (K := K)) (fun _ _ => true) (E := K) save.
Lemma good_nil_zero h (f : fir K) : good h [] f -> skip_ f = 0.
Proof. intros G. destruct (gd_saved _ _ _ G) as [(_ & H & _)|(H1 & H2 & _)]; [exact H|]. cbn in H2. pose proof (gd_skip _ _ _ G). pose proof (gd_d _ _ _ G). lia. Qed.
Lemma filter_ok h i d past (f : fir K) x out : fits ((h, i, d), past) f -> length x = i -> length out = (i + d - 1) / d ->
  exists f' o n, Fir.filter save f x out = Some (f', o, n) /\ fits ((h, i, d), if save then past ++ x else []) f' /\ base f' = base f /\ kernel_ f' = kernel_ f /\
    fir_answer (h, i, d, past, x, out) (o, n) /\ (save = false -> f' = f).
Proof.
  intros (G & Ei & Ed & Np) Lx Lo.
  assert (Eo : output_size (base f) = (i + d - 1) / d) by (rewrite (gd_o _ _ _ G), Ei, Ed; reflexivity).
  unfold Fir.filter. rewrite assert_true by (apply Nat.eqb_eq; congruence). rewrite assert_true by (apply Nat.eqb_eq; congruence).
  destruct (apply_ok save h past f x out G ltac:(congruence) ltac:(congruence) Np) as (f' & o & n & E & Fs & Fn & Lo' & Hn & Old & New & Cnt).
  rewrite E. exists f', o, n. split; [reflexivity|].
  pose proof (gd_d _ _ _ G) as Gd. rewrite Ed in Gd. destruct (gd_pos _ _ _ G) as [q0 Q0]. rewrite Ed in Q0. pose proof (gd_skip _ _ _ G) as Sk. rewrite Ed in Sk. rewrite Ei, Ed in Cnt.
  assert (F1 : (length past + d - 1) / d = q0) by (symmetry; apply (ceil_unique); lia).
  assert (F2 : (length past + length x + d - 1) / d = q0 + n) by (symmetry; apply ceil_unique; nia).
  split; [|split; [|split; [|split]]].
  - destruct save; [destruct (Fs eq_refl) as [G' B]|rewrite (Fn eq_refl)].
    + cbn [fits]. rewrite B. split; [exact G'|]. split; [exact Ei|]. split; [exact Ed|]. discriminate.
    + rewrite (Np eq_refl) in G. split; [exact G|]. split; [exact Ei|]. split; [exact Ed|]. reflexivity.
  - destruct save; [apply Fs; reflexivity|rewrite (Fn eq_refl); reflexivity].
  - destruct save; [|rewrite (Fn eq_refl); reflexivity]. destruct (Fs eq_refl) as [G' _]. rewrite (gd_k _ _ _ G'), (gd_k _ _ _ G). reflexivity.
  - cbn [fir_answer]. rewrite F1, F2. split; [reflexivity|]. apply nth_error_ext. intros j. destruct (Nat.ltb_spec j n) as [Hj|Hj].
    + rewrite nth_error_app1 by (rewrite map_length, seq_length; exact Hj). rewrite nth_error_map_seq. rewrite (proj2 (Nat.ltb_lt _ _) Hj).
      destruct (New j Hj) as [_ ->]. do 2 f_equal. rewrite Ed. nia.
    + rewrite nth_error_app2 by (rewrite map_length, seq_length; exact Hj). rewrite map_length, seq_length, skipn_nth_err. rewrite Old by exact Hj. f_equal. lia.
  - exact Fn.
Qed.
Lemma hinv_vars R (st : fstate K) vs : hinv R st -> hinv R (with_vars st vs).
Proof. intros [A B C]. constructor; assumption. Qed.
Lemma at_none_beyond {A} (l : list (option A)) v : length l <= v -> at_ l v = None.
Proof. intros H. destruct (at_ l v) eqn:E; [apply at_lt in E; lia|reflexivity]. Qed.
Lemma reset_fits h i d past (f : fir K) : fits ((h, i, d), past) f -> fits ((h, i, d), []) (Fir.reset f).
Proof. intros (G & Ei & Ed & _). split; [eapply reset_good; exact G|]. split; [exact Ei|]. split; [exact Ed|]. reflexivity. Qed.

(** The variables agree after a variable was added or set. *)
Lemma agree_snoc (st st' : fstate K) s p f t : agree st s -> fvars st' = fvars st ++ [Some p] -> (forall q g, load st q = Some g -> load st' q = Some g) ->
  load st' p = Some f -> fits t f -> agree st' (s ++ [Some t]).
Proof.
  intros [L Ag] Ev Ld Lp Ft. split; [rewrite Ev, !app_length, L; reflexivity|]. intros v. rewrite Ev, !at_snoc, L. destruct (Nat.eqb_spec v (length s)) as [-> |N].
  - eauto.
  - specialize (Ag v). destruct (at_ s v) as [u|]; [|exact Ag]. destruct Ag as (p' & f' & E & L' & F'). exists p', f'. auto.
Qed.
Lemma agree_lset (st st' : fstate K) s v p0 o t : agree st s -> at_ (fvars st) v = Some p0 -> fvars st' = lset (fvars st) v o ->
  (forall v' p' f' u, v' <> v -> at_ s v' = Some u -> at_ (fvars st) v' = Some p' -> load st p' = Some f' -> fits u f' -> exists f'', load st' p' = Some f'' /\ fits u f'') ->
  match o, t with Some p, Some u => exists f, load st' p = Some f /\ fits u f | None, None => True | _, _ => False end ->
  agree st' (lset s v t).
Proof.
  intros [L Ag] E0 Ev Ld Ht. pose proof (at_lt _ _ _ E0) as Lt. split; [rewrite Ev, !lset_len; exact L|]. intros v'. rewrite Ev, !at_lset by (rewrite <- ?L; exact Lt).
  destruct (Nat.eqb_spec v' v) as [-> |N].
  - destruct o as [p|], t as [u|]; try contradiction; [|reflexivity]. destruct Ht as (f & A & B). eauto.
  - specialize (Ag v'). destruct (at_ s v') as [u|] eqn:Es; [|exact Ag]. destruct Ag as (p' & f' & E & L' & F'). destruct (Ld v' p' f' u N Es E L' F') as (f'' & A & B). eauto.
Qed.
Lemma save_cases : save = true \/ save = false.
Proof. clear. destruct save; auto. Qed.
Lemma fir_step st s o s' q : inv st s -> sstep s o = Some (s', q) -> exists st' r, mstep st o = Some (st', r) /\ inv st' s' /\ Forall2 fir_answer q r.
Proof.
  intros [H Ag] E. pose proof Ag as [Lv Av]. destruct o as [c|w|v w|v x out|v|v]; cbn [sstep track] in E; unfold mstep; cbn [fstep].
  - destruct c as [[k i] d]. cbn [fir_make] in E. destruct (_ && _) eqn:Ec in E; [|discriminate]. cbn [bind] in E. injection E as <- <-.
    rewrite !andb_true_iff, !Nat.ltb_lt, Nat.leb_le in Ec. destruct Ec as ((((C1 & C2) & C3) & C4) & C5).
    assert (Hk : 0 < length k) by lia. pose proof (full_exists S k Hk) as FK. change (unfold_kernel S k) with (match S with nonsym => k | sym_even_len_odd => k ++ tl (rev k) | sym_even_len_even => k ++ rev k end) in FK.
    set (h := match S with nonsym => k | sym_even_len_odd => k ++ tl (rev k) | sym_even_len_even => k ++ rev k end) in *.
    destruct (FirProofs.make_some S k h i d FK Hk ltac:(destruct S; [left; exact C1|right; discriminate..]) C2 ltac:(lia) C5) as [f Ef].
    destruct (FirProofs.make_ok S k h i d f FK Ef) as (G & Ei & Ed & _ & _). unfold fnew. rewrite Ef. cbn [bind].
    destruct (new_ok save (refs (fvars st)) st f H) as (H' & Lp & Ld). eexists _, []. split; [reflexivity|]. split; [|constructor]. split.
    + eapply hinv_ext; [|exact H']. intros z. cbn [fvars]. rewrite refs_snoc. reflexivity.
    + eapply agree_snoc; [exact Ag|reflexivity|exact Ld|exact Lp|]. split; [exact G|]. split; [exact Ei|]. split; [exact Ed|]. reflexivity.
  - destruct (at_ s w) as [t|] eqn:Ew; [|discriminate]. cbn [bind] in E. injection E as <- <-. pose proof (Av w) as A. rewrite Ew in A. destruct A as (p & f & Ep & Lp & Ft). rewrite Ep. cbn [bind].
    destruct save_cases as [Sv|Sv]; rewrite Sv.
    + destruct (clone_ok save (refs (fvars st)) st p f H Lp) as (st' & Ec & Ev & H' & Ln & Ld). rewrite Ec. cbn [bind fst snd]. eexists _, []. split; [reflexivity|]. split; [|constructor]. split.
      * apply hinv_vars. eapply hinv_ext; [|exact H']. intros z. cbn [fvars with_vars]. rewrite refs_snoc. reflexivity.
      * eapply agree_snoc; [exact Ag|reflexivity|exact Ld|exact Ln|exact Ft].
    + destruct (share_ok save (refs (fvars st)) st p Sv H (refs_pos _ _ _ Ep)) as (st' & Ec & Ev & H' & Ld). rewrite Ec. cbn [bind fst snd]. eexists _, []. split; [reflexivity|]. split; [|constructor]. split.
      * apply hinv_vars. eapply hinv_ext; [|exact H']. intros z. cbn [fvars with_vars]. rewrite refs_snoc. reflexivity.
      * eapply agree_snoc; [exact Ag|reflexivity| | |exact Ft]; [intros z g Lz; change (load st' z = Some g); rewrite Ld; exact Lz|change (load st' p = Some f); rewrite Ld; exact Lp].
  - destruct (at_ s v) as [u|] eqn:Ev0; [|discriminate]. cbn [bind] in E. destruct (at_ s w) as [t|] eqn:Ew; [|discriminate]. cbn [bind] in E. injection E as <- <-.
    pose proof (Av w) as A. rewrite Ew in A. destruct A as (p & f & Ep & Lp & Ft). pose proof (Av v) as A. rewrite Ev0 in A. destruct A as (old & g & Eo & Lo & Fo). rewrite Eo, Ep. cbn [bind].
    destruct save_cases as [Sv|Sv]; rewrite Sv.
    + destruct (clone_ok save (refs (fvars st)) st p f H Lp) as (st' & Ec & Ev & H' & Ln & Ld). rewrite Ec. cbn [bind fst snd]. set (n := length (backs st)) in *.
      destruct (release_ok save (refs (lset (fvars st) v (Some n))) _ st' old H' ltac:(intros z; pose proof (refs_lset (fvars st) v old (Some n) z Eo); cbn beta; lia)) as (st2 & Er & Ev2 & H2 & Ld2).
      rewrite Er. cbn [bind]. eexists _, []. split; [reflexivity|]. split; [|constructor]. split; [apply hinv_vars; exact H2|].
      assert (An : at_ (lset (fvars st) v (Some n)) v = Some n) by (rewrite at_lset by (eapply at_lt; exact Eo); rewrite Nat.eqb_refl; reflexivity).
      eapply agree_lset; [exact Ag|exact Eo|reflexivity| |].
      * intros v' p' f' u' N Es Ev' L' F'. exists f'. split; [|exact F']. change (load st2 p' = Some f'). rewrite Ld2; [apply Ld; exact L'|]. apply (refs_pos _ v'). rewrite at_lset by (eapply at_lt; exact Eo).
        rewrite (proj2 (Nat.eqb_neq _ _) N). exact Ev'.
      * exists f. split; [|exact Ft]. change (load st2 n = Some f). rewrite Ld2; [exact Ln|]. apply (refs_pos _ v). exact An.
    + destruct (share_ok save (refs (fvars st)) st p Sv H (refs_pos _ _ _ Ep)) as (st' & Ec & Ev & H' & Ld). rewrite Ec. cbn [bind fst snd].
      destruct (release_ok save (refs (lset (fvars st) v (Some p))) _ st' old H' ltac:(intros z; pose proof (refs_lset (fvars st) v old (Some p) z Eo); cbn beta; lia)) as (st2 & Er & Ev2 & H2 & Ld2).
      rewrite Er. cbn [bind]. eexists _, []. split; [reflexivity|]. split; [|constructor]. split; [apply hinv_vars; exact H2|].
      assert (An : at_ (lset (fvars st) v (Some p)) v = Some p) by (rewrite at_lset by (eapply at_lt; exact Eo); rewrite Nat.eqb_refl; reflexivity).
      eapply agree_lset; [exact Ag|exact Eo|reflexivity| |].
      * intros v' p' f' u' N Es Ev' L' F'. exists f'. split; [|exact F']. change (load st2 p' = Some f'). rewrite Ld2, Ld; [exact L'|]. apply (refs_pos _ v'). rewrite at_lset by (eapply at_lt; exact Eo).
        rewrite (proj2 (Nat.eqb_neq _ _) N). exact Ev'.
      * exists f. split; [|exact Ft]. change (load st2 p = Some f). rewrite Ld2, Ld; [exact Lp|]. apply (refs_pos _ v). exact An.
  - destruct (at_ s v) as [t|] eqn:Ev0; [|discriminate]. cbn [bind] in E. destruct t as [[[h i] d] past]. cbn [fst snd fir_accepts] in E.
    destruct (_ && _) eqn:Ec in E; [|discriminate]. cbn [bind] in E. injection E as <- <-. apply andb_true_iff in Ec. destruct Ec as [C1 C2]. apply Nat.eqb_eq in C1, C2.
    pose proof (Av v) as A. rewrite Ev0 in A. destruct A as (p & f & Ep & Lp & Ft). rewrite Ep. cbn [bind]. rewrite Lp. cbn [bind].
    destruct (filter_ok h i d past f x out Ft C1 C2) as (f' & o & n & Ef & Ft' & Eb & Ek & An & Fn). rewrite Ef. cbn [bind].
    destruct (store_ok save (refs (fvars st)) st p f f' H Lp Eb Ek) as (st' & Es & Ev & H' & Ln & Ld). rewrite Es. cbn [bind]. eexists _, [(o, n)]. split; [reflexivity|]. split; [|constructor; [exact An|constructor]].
    split; [rewrite Ev; exact H'|]. eapply (agree_lset st st' s v p (Some p)); [exact Ag|exact Ep| | |].
    + rewrite Ev. symmetry. apply lset_same. apply at_some. exact Ep.
    + intros v' p' g u N Es' Ev' L' F'. destruct (Nat.eq_dec p' p) as [-> |D]; [|exists g; split; [rewrite Ld by exact D; exact L'|exact F']].
      destruct save_cases as [Sv|Sv]; [exfalso; apply N; exact (unique_var st v' v p Sv H Ev' Ep)|]. exists g. split; [|exact F']. rewrite Ln, (Fn Sv). congruence.
    + exists f'. split; [exact Ln|exact Ft'].
  - destruct (at_ s v) as [t|] eqn:Ev0; [|discriminate]. cbn [bind] in E. injection E as <- <-. destruct t as [[[h i] d] past]. cbn [fst snd].
    pose proof (Av v) as A. rewrite Ev0 in A. destruct A as (p & f & Ep & Lp & Ft). rewrite Ep. cbn [bind]. rewrite Lp. cbn [bind].
    destruct (store_ok save (refs (fvars st)) st p f (Fir.reset f) H Lp eq_refl eq_refl) as (st' & Es & Ev & H' & Ln & Ld). rewrite Es. cbn [bind]. eexists _, []. split; [reflexivity|]. split; [|constructor].
    split; [rewrite Ev; exact H'|]. eapply (agree_lset st st' s v p (Some p)); [exact Ag|exact Ep| | |].
    + rewrite Ev. symmetry. apply lset_same. apply at_some. exact Ep.
    + intros v' p' g u N Es' Ev' L' F'. destruct (Nat.eq_dec p' p) as [-> |D]; [|exists g; split; [rewrite Ld by exact D; exact L'|exact F']].
      destruct save_cases as [Sv|Sv]; [exfalso; apply N; exact (unique_var st v' v p Sv H Ev' Ep)|].
      exists (Fir.reset f). split; [exact Ln|]. rewrite Lp in L'. injection L' as <-. destruct u as [[[h' i'] d'] past']. pose proof F' as (_ & _ & _ & Z). rewrite (Z Sv). eapply reset_fits. exact F'.
    + exists (Fir.reset f). split; [exact Ln|]. eapply reset_fits. exact Ft.
  - destruct (at_ s v) as [t|] eqn:Ev0; [|discriminate]. cbn [bind] in E. injection E as <- <-. pose proof (Av v) as A. rewrite Ev0 in A. destruct A as (p & f & Ep & Lp & Ft). rewrite Ep. cbn [bind].
    destruct (release_ok save (refs (lset (fvars st) v None)) _ st p H ltac:(intros z; pose proof (refs_lset (fvars st) v p None z Ep) as Z; cbv beta iota in Z; lia)) as (st2 & Er & Ev2 & H2 & Ld2).
    rewrite Er. cbn [bind]. eexists _, []. split; [reflexivity|]. split; [|constructor]. split; [apply hinv_vars; exact H2|].
    eapply agree_lset; [exact Ag|exact Ep|reflexivity| |exact I].
    intros v' p' f' u' N Es Ev' L' F'. exists f'. split; [|exact F']. change (load st2 p' = Some f'). rewrite Ld2; [exact L'|]. apply (refs_pos _ v'). rewrite at_lset by (eapply at_lt; exact Ep).
    rewrite (proj2 (Nat.eqb_neq _ _) N). exact Ev'.
Qed.
Lemma inv_start : inv fstart [].
Proof.
  assert (N : forall A i, at_ (@nil (option A)) i = None) by (intros A [|i]; reflexivity).
  split; [constructor; cbn [fstart backs vecs fvars]|split]; cbn [fstart fvars]; try reflexivity; intros; rewrite !N in *; try reflexivity. discriminate.
Qed.
Lemma fir_exec ops : forall st s s' q, inv st s -> exec sstep s ops = Some (s', q) -> exists st' r, exec mstep st ops = Some (st', r) /\ inv st' s' /\ Forall2 fir_answer q r.
Proof.
  induction ops as [|o ops IH]; intros st s s' q I E; cbn [exec] in *.
  - injection E as <- <-. exists st, []. auto.
  - destruct (sstep s o) as [[s1 q1]|] eqn:E1; [|discriminate]. cbn [bind fst snd] in E. destruct (exec sstep s1 ops) as [[s2 q2]|] eqn:E2; [|discriminate]. cbn [bind fst snd] in E. injection E as <- <-.
    destruct (fir_step st s o s1 q1 I E1) as (st1 & r1 & M1 & I1 & F1). destruct (IH st1 s1 s2 q2 I1 E2) as (st2 & r2 & M2 & I2 & F2).
    rewrite M1. cbn [bind fst snd]. rewrite M2. cbn [bind fst snd]. exists st2, (r1 ++ r2). split; [reflexivity|]. split; [exact I2|]. apply Forall2_app; assumption.
Qed.
Lemma inv_empty st s : inv st s -> Forall (eq None) s -> Forall (eq None) (fvars st) /\ Forall (eq None) (backs st) /\ Forall (eq None) (vecs st).
Proof.
  intros [H [L Ag]] F. assert (Fv : forall v, at_ (fvars st) v = None) by (intros v; specialize (Ag v); rewrite (none_all s v F) in Ag; exact Ag).
  assert (Fb : forall p, at_ (backs st) p = None).
  { intros p. pose proof (hi_b _ _ _ H p) as B. destruct (at_ (backs st) p) as [[c k]|]; [|reflexivity]. unfold refs in B. rewrite cnt_none_at in B; [lia|]. intros i y E. rewrite Fv in E. discriminate. }
  split; [apply all_none; exact Fv|]. split; [apply all_none; exact Fb|]. apply all_none. intros b. pose proof (hi_v _ _ _ H b) as V. destruct (at_ (vecs st) b) as [[c l]|]; [|reflexivity].
  rewrite cnt_none_at in V; [lia|]. intros i y E. rewrite Fb in E. discriminate.
Qed.
End FirRun.

Section IirRun.
Context {K : CRing} (save : bool).
Local Notation tk := ((@matrix K * @matrix K * nat) * list K)%type.
Definition ifits (t : tk) (f : iir K) : Prop :=
  let '((b, a, n), past) := t in
  exists cs, b = bmat cs /\ a = amat cs /\ f = mk cs (snd (procs cs (zeros (length cs)) past)) n /\ (save = false -> past = []).
Definition mem_ (m : nat) (o : iobj) : Prop := m = bp o \/ m = ap o \/ m = wp o.
Record iinv (st : istate K) (s : list (option tk)) : Prop := {
  ii_len : length (ivars st) = length s;
  ii_var : forall v, match at_ s v with
                     | Some t => exists o f, at_ (ivars st) v = Some o /\ iload st o = Some f /\ ifits t f
                     | None => at_ (ivars st) v = None
                     end;
  ii_dist : forall v o, at_ (ivars st) v = Some o -> bp o <> ap o /\ bp o <> wp o /\ ap o <> wp o;
  ii_disj : forall v v' o o' m, v <> v' -> at_ (ivars st) v = Some o -> at_ (ivars st) v' = Some o' -> mem_ m o -> ~ mem_ m o';
  ii_used : forall m x, at_ (mats st) m = Some x -> exists v o, at_ (ivars st) v = Some o /\ mem_ m o
}.
Lemma iload_some (st : istate K) o f : iload st o = Some f -> at_ (mats st) (bp o) = Some (b_ f) /\ at_ (mats st) (ap o) = Some (a_ f) /\ at_ (mats st) (wp o) = Some (w_ f) /\ isz o = Iir.input_size f.
Proof.
  unfold iload. destruct (at_ (mats st) (bp o)); [|discriminate]. destruct (at_ (mats st) (ap o)); [|discriminate]. destruct (at_ (mats st) (wp o)); [|discriminate]. intros [= <-]. auto.
Qed.
Lemma iload_eq (st : istate K) o f : at_ (mats st) (bp o) = Some (b_ f) -> at_ (mats st) (ap o) = Some (a_ f) -> at_ (mats st) (wp o) = Some (w_ f) -> isz o = Iir.input_size f -> iload st o = Some f.
Proof. intros A B C D. unfold iload. rewrite A, B, C, D. destruct f; reflexivity. Qed.
Lemma iload_same (st st' : istate K) o : (forall m, mem_ m o -> at_ (mats st') m = at_ (mats st) m) -> iload st' o = iload st o.
Proof. intros E. unfold iload. rewrite !E by (unfold mem_; auto). reflexivity. Qed.
Lemma shape_maps {X Y} (f : X -> list K) (g : Y -> list K) k : (forall x, length (f x) = k) -> (forall y, length (g y) = k) ->
  forall l l', length l = length l' -> same_shape (map f l) (map g l') = true.
Proof.
  intros Hf Hg l l' L. unfold same_shape. rewrite !map_length, L, Nat.eqb_refl. cbn [andb]. apply forallb_forall. intros [x y] I. cbn [fst snd].
  apply Nat.eqb_eq. pose proof (in_combine_l _ _ _ _ I) as I1. pose proof (in_combine_r _ _ _ _ I) as I2. apply in_map_iff in I1, I2. destruct I1 as (a & <- & _), I2 as (b & <- & _). rewrite Hf, Hg. reflexivity.
Qed.
Lemma shape_repeat {Y} (z : list K) (g : Y -> list K) k : length z = k -> (forall y, length (g y) = k) -> forall l n, n = length l -> same_shape (repeat z n) (map g l) = true.
Proof.
  intros Hz Hg l n ->. replace (repeat z (length l)) with (map (fun _ : Y => z) l) by (clear; induction l; cbn; congruence). apply (shape_maps _ _ k); auto.
Qed.
Definition imstep := istep (K := K) save.
Definition isstep := track (iir_make (K := K)) (iir_accepts (K := K)) (iir_assignable (K := K)) (E := K) save.
Lemma ifilter_ok b a n past (f : iir K) x out : ifits ((b, a, n), past) f -> length x = n -> length out = n ->
  exists f' y, Iir.filter save f x out = Some (f', y) /\ ifits ((b, a, n), if save then past ++ x else []) f' /\ b_ f' = b_ f /\ a_ f' = a_ f /\ Iir.input_size f' = Iir.input_size f /\
    iir_answer (b, a, n, past, x, out) y.
Proof.
  intros (cs & -> & -> & -> & Np) Lx Lo. set (ws := snd (procs cs (zeros (length cs)) past)).
  assert (Lw : length ws = length cs) by (apply procs_st_len, zlen).
  rewrite (IirProofs.filter_ok save cs ws n x out Lw Lx Lo). eexists _, _. split; [reflexivity|]. split; [|split; [reflexivity|split; [reflexivity|split; [reflexivity|]]]].
  - exists cs. split; [reflexivity|]. split; [reflexivity|]. destruct save; [|split; reflexivity]. split; [|discriminate]. rewrite procs_app. reflexivity.
  - cbn [iir_answer]. exists (fst (procs cs (zeros (length cs)) (past ++ x))). split; [apply procs_cascade|]. rewrite procs_app. cbn [fst]. rewrite skipn_app, procs_out_len, Nat.sub_diag, skipn_all2; [reflexivity|]. rewrite procs_out_len. lia.
Qed.
Lemma ireset_ok b a n past (f : iir K) : ifits ((b, a, n), past) f -> ifits ((b, a, n), []) (Iir.reset f).
Proof.
  intros (cs & -> & -> & -> & Np). exists cs. split; [reflexivity|]. split; [reflexivity|]. split; [|reflexivity]. unfold Iir.reset, mk. cbn [b_ a_ w_ Iir.input_size]. rewrite wmat_zeros, procs_st_len by apply zlen. reflexivity.
Qed.
(** Adding an object with three new matrices. *)
Lemma isnoc st s t f m1 m2 m3 : iinv st s -> m1 = b_ f -> m2 = a_ f -> m3 = w_ f -> ifits t f ->
  iinv (IState (ivars st ++ [Some (IObj (length (mats st)) (length (mats st) + 1) (length (mats st) + 2) (Iir.input_size f))]) (mats st ++ [Some m1; Some m2; Some m3])) (s ++ [Some t]).
Proof.
  intros I -> -> -> Ft. set (p := length (mats st)). set (o := IObj p (p + 1) (p + 2) (Iir.input_size f)).
  assert (Am : forall m, at_ (mats st ++ [Some (b_ f); Some (a_ f); Some (w_ f)]) m = if m =? p then Some (b_ f) else if m =? p + 1 then Some (a_ f) else if m =? p + 2 then Some (w_ f) else at_ (mats st) m).
  { intros m. rewrite at_app. fold p. destruct (Nat.ltb_spec m p).
    - rewrite !(proj2 (Nat.eqb_neq _ _)) by lia. reflexivity.
    - destruct (Nat.eqb_spec m p) as [-> |]; [rewrite Nat.sub_diag; reflexivity|]. destruct (Nat.eqb_spec m (p + 1)) as [-> |]; [replace (p + 1 - p) with 1 by lia; reflexivity|].
      destruct (Nat.eqb_spec m (p + 2)) as [-> |]; [replace (p + 2 - p) with 2 by lia; reflexivity|]. rewrite !at_none_beyond; [reflexivity|fold p; lia|cbn; lia]. }
  assert (Lt : forall v o', at_ (ivars st) v = Some o' -> forall m, mem_ m o' -> m < p).
  { intros v o' Ev m Hm. pose proof (ii_var _ _ I v) as A. destruct (at_ s v); [|congruence]. destruct A as (o2 & g & E2 & Lg & _). rewrite Ev in E2. injection E2 as <-. apply iload_some in Lg. destruct Lg as (A1 & A2 & A3 & _).
    destruct Hm as [-> | [-> | ->]]; eapply at_lt; eassumption. }
  constructor; cbn [ivars mats].
  - rewrite !app_length, (ii_len _ _ I). reflexivity.
  - intros v. rewrite !at_snoc, (ii_len _ _ I). destruct (Nat.eqb_spec v (length s)) as [-> |N].
    + exists o, f. split; [reflexivity|]. split; [|exact Ft]. apply iload_eq; cbn [mats bp ap wp isz o]; rewrite ?Am; rewrite ?Nat.eqb_refl; rewrite ?(proj2 (Nat.eqb_neq (p + 1) p)), ?(proj2 (Nat.eqb_neq (p + 2) p)), ?(proj2 (Nat.eqb_neq (p + 2) (p + 1))) by lia; rewrite ?Nat.eqb_refl; reflexivity.
    + pose proof (ii_var _ _ I v) as A. destruct (at_ s v) as [u|]; [|exact A]. destruct A as (o2 & g & E2 & Lg & Fg). exists o2, g. split; [exact E2|]. split; [|exact Fg]. rewrite <- Lg. apply iload_same. intros m Hm. cbn [mats]. rewrite Am.
      pose proof (Lt v o2 E2 m Hm). rewrite !(proj2 (Nat.eqb_neq m _)) by lia. reflexivity.
  - intros v o'. rewrite at_snoc. destruct (v =? length (ivars st)); [intros [= <-]; cbn; lia|apply (ii_dist _ _ I)].
  - intros v v' o1 o2 m N. rewrite !at_snoc. destruct (Nat.eqb_spec v (length (ivars st))), (Nat.eqb_spec v' (length (ivars st))); try congruence.
    + intros [= <-] E2 M1 M2. pose proof (Lt v' o2 E2 m M2). unfold mem_ in M1. cbn in M1. lia.
    + intros E1 [= <-] M1 M2. pose proof (Lt v o1 E1 m M1). unfold mem_ in M2. cbn in M2. lia.
    + apply (ii_disj _ _ I). exact N.
  - intros m x. rewrite Am. assert (New : mem_ m o -> exists v o0, at_ (ivars st ++ [Some o]) v = Some o0 /\ mem_ m o0) by (intros Hm; exists (length (ivars st)), o; rewrite at_snoc, Nat.eqb_refl; auto).
    destruct (Nat.eqb_spec m p) as [-> |]; [intros _; apply New; left; reflexivity|]. destruct (Nat.eqb_spec m (p + 1)) as [-> |]; [intros _; apply New; right; left; reflexivity|].
    destruct (Nat.eqb_spec m (p + 2)) as [-> |]; [intros _; apply New; right; right; reflexivity|]. intros Em. destruct (ii_used _ _ I m x Em) as (v & o' & Ev & Hm). exists v, o'. split; [|exact Hm]. rewrite at_snoc.
    rewrite (proj2 (Nat.eqb_neq _ _)); [exact Ev|]. apply at_lt in Ev. lia.
Qed.
(** Changing the matrices and the size of one object. *)
Lemma iupd st s v y m' n t f : iinv st s -> at_ (ivars st) v = Some y -> length m' = length (mats st) ->
  (forall m, ~ mem_ m y -> at_ m' m = at_ (mats st) m) -> at_ m' (bp y) = Some (b_ f) -> at_ m' (ap y) = Some (a_ f) -> at_ m' (wp y) = Some (w_ f) -> n = Iir.input_size f -> ifits t f ->
  iinv (IState (lset (ivars st) v (Some (IObj (bp y) (ap y) (wp y) n))) m') (lset s v (Some t)).
Proof.
  intros I Ey Lm Ot B1 B2 B3 -> Ft. set (o := IObj (bp y) (ap y) (wp y) (Iir.input_size f)). pose proof (at_lt _ _ _ Ey) as Lv.
  assert (Al : forall v', at_ (lset (ivars st) v (Some o)) v' = if v' =? v then Some o else at_ (ivars st) v') by (intros v'; apply at_lset; exact Lv).
  assert (Mo : forall m, mem_ m o <-> mem_ m y) by (intros m; reflexivity).
  constructor; cbn [ivars mats].
  - rewrite !lset_len. apply I.
  - intros v'. rewrite Al, at_lset by (rewrite <- (ii_len _ _ I); exact Lv). destruct (Nat.eqb_spec v' v) as [-> |N].
    + exists o, f. split; [reflexivity|]. split; [|exact Ft]. apply iload_eq; assumption || reflexivity.
    + pose proof (ii_var _ _ I v') as A. destruct (at_ s v') as [u|]; [|exact A]. destruct A as (o2 & g & E2 & Lg & Fg). exists o2, g. split; [exact E2|]. split; [|exact Fg]. rewrite <- Lg. apply iload_same. intros m Hm. cbn [mats].
      apply Ot. apply (ii_disj _ _ I v' v o2 y m N E2 Ey Hm).
  - intros v' o'. rewrite Al. destruct (v' =? v); [intros [= <-]; exact (ii_dist _ _ I v y Ey)|apply (ii_dist _ _ I)].
  - intros v1 v2 o1 o2 m N. rewrite !Al. destruct (Nat.eqb_spec v1 v), (Nat.eqb_spec v2 v); try congruence.
    + intros [= <-] E2. rewrite Mo. subst. apply (ii_disj _ _ I v v2); auto.
    + intros E1 [= <-]. rewrite Mo. subst. apply (ii_disj _ _ I v1 v); auto.
    + apply (ii_disj _ _ I). exact N.
  - intros m x Em. assert (D : mem_ m y \/ ~ mem_ m y) by (unfold mem_; destruct (Nat.eq_dec m (bp y)), (Nat.eq_dec m (ap y)), (Nat.eq_dec m (wp y)); tauto).
    destruct D as [D|D]; [exists v, o; rewrite Al, Nat.eqb_refl; auto|]. rewrite Ot in Em by exact D. destruct (ii_used _ _ I m x Em) as (v' & o' & Ev & Hm). exists v', o'. rewrite Al.
    destruct (Nat.eqb_spec v' v) as [-> |]; [|auto]. rewrite Ey in Ev. injection Ev as <-. contradiction.
Qed.
Lemma iir_step st s o s' q : iinv st s -> isstep s o = Some (s', q) -> exists st' r, imstep st o = Some (st', r) /\ iinv st' s' /\ Forall2 iir_answer q r.
Proof.
  intros I E. destruct o as [c|w|v w|v x out|v|v]; cbn [isstep track] in E; unfold imstep; cbn [istep].
  - destruct c as [[b a] n]. cbn [iir_make] in E. destruct (_ && _) eqn:Ec in E; [|discriminate]. cbn [bind] in E. injection E as <- <-.
    rewrite !andb_true_iff in Ec. destruct Ec as ((C1 & C2) & C3). assert (Ef : exists f, make_iir b a n = Some f) by (unfold make_iir; rewrite C1, C2, C3; eauto). destruct Ef as [f Ef]. rewrite Ef. cbn [bind].
    destruct (make_ok b a n f Ef) as (cs & Eb & Ea & Ef'). eexists _, []. split; [reflexivity|]. split; [|constructor].
    assert (En : n = Iir.input_size f) by (rewrite Ef'; reflexivity). rewrite En at 1. apply isnoc; auto. exists cs. rewrite Ef'. auto.
  - destruct (at_ s w) as [t|] eqn:Ew; [|discriminate]. cbn [bind] in E. injection E as <- <-. pose proof (ii_var _ _ I w) as A. rewrite Ew in A. destruct A as (x & f & Ex & Lf & Ft). rewrite Ex. cbn [bind]. rewrite Lf. cbn [bind].
    pose proof (iload_some _ _ _ Lf) as (B1 & B2 & B3 & Sz). destruct t as [[[b a] n] past]. pose proof Ft as (cs & Eb & Ea & Ef & _).
    cbv zeta. set (p := length (mats st)). pose proof (at_lt _ _ _ B1) as L1. pose proof (at_lt _ _ _ B2) as L2. pose proof (at_lt _ _ _ B3) as L3. fold p in L1, L2, L3.
    set (z1 := repeat (repeat 0%cr 3) (length (b_ f))). set (z2 := repeat (repeat 0%cr 2) (length (a_ f))). set (z3 := repeat (repeat 0%cr 2) (length (b_ f))).
    assert (Lcs : length (b_ f) = length cs /\ length (a_ f) = length cs) by (rewrite Ef; cbn [mk b_ a_]; unfold bmat, amat; rewrite !map_length; auto). destruct Lcs as [Lb La].
    assert (Lw : length (snd (procs cs (zeros (length cs)) past)) = length cs) by apply procs_st_len, zlen.
    assert (S1 : same_shape z1 (b_ f) = true) by (unfold z1; rewrite Lb, Ef; apply (shape_repeat _ _ 3); auto).
    assert (S2 : same_shape z2 (a_ f) = true) by (unfold z2; rewrite La, Ef; apply (shape_repeat _ _ 2); auto).
    assert (S3 : same_shape z3 (w_ f) = true) by (unfold z3; rewrite Lb, Ef; apply (shape_repeat _ _ 2); auto).
    assert (Ap : forall (X Y Z : @matrix K) m, m < p -> at_ (mats st ++ [Some X; Some Y; Some Z]) m = at_ (mats st) m) by (intros X Y Z m Hm; rewrite at_app; fold p; rewrite (proj2 (Nat.ltb_lt _ _) Hm); reflexivity).
    assert (A0 : forall (X Y Z : @matrix K), at_ (mats st ++ [Some X; Some Y; Some Z]) p = Some X /\ at_ (mats st ++ [Some X; Some Y; Some Z]) (p + 1) = Some Y /\ at_ (mats st ++ [Some X; Some Y; Some Z]) (p + 2) = Some Z).
    { intros X Y Z. rewrite !at_app. fold p. rewrite !(proj2 (Nat.ltb_ge _ _)) by lia. rewrite Nat.sub_diag. replace (p + 1 - p) with 1 by lia. replace (p + 2 - p) with 2 by lia. repeat split; reflexivity. }
    assert (Ls : forall (X Y Z X' : @matrix K), lset (mats st ++ [Some X; Some Y; Some Z]) p (Some X') = mats st ++ [Some X'; Some Y; Some Z] /\
                  lset (mats st ++ [Some X; Some Y; Some Z]) (p + 1) (Some X') = mats st ++ [Some X; Some X'; Some Z] /\ lset (mats st ++ [Some X; Some Y; Some Z]) (p + 2) (Some X') = mats st ++ [Some X; Some Y; Some X']).
    { intros X Y Z X'. unfold p. clear. induction (mats st) as [|m l (A & B & C)]; [repeat split|]. cbn [app length Nat.add lset]. rewrite A, B, C. repeat split. }
    unfold assign_mat. unfold matrix in *.
    rewrite (proj1 (A0 z1 z2 z3)). cbn [bind]. rewrite Ap by exact L1. rewrite B1. cbn [bind]. rewrite S1. cbn [bind]. rewrite (proj1 (Ls z1 z2 z3 (b_ f))).
    rewrite (proj1 (proj2 (A0 (b_ f) z2 z3))). cbn [bind]. rewrite Ap by exact L2. rewrite B2. cbn [bind]. rewrite S2. cbn [bind]. rewrite (proj1 (proj2 (Ls (b_ f) z2 z3 (a_ f)))).
    rewrite (proj2 (proj2 (A0 (b_ f) (a_ f) z3))). cbn [bind]. rewrite Ap by exact L3. rewrite B3. cbn [bind]. rewrite S3. cbn [bind]. rewrite (proj2 (proj2 (Ls (b_ f) (a_ f) z3 (w_ f)))).
    eexists _, []. split; [reflexivity|]. split; [|constructor]. rewrite Sz. apply isnoc; auto.
  - destruct (at_ s v) as [u|] eqn:Ev0; [|discriminate]. cbn [bind] in E. destruct (at_ s w) as [t|] eqn:Ew; [|discriminate]. cbn [bind] in E. destruct (iir_assignable (fst u) (fst t)) eqn:Eas; [|discriminate]. cbn [bind] in E. injection E as <- <-.
    pose proof (ii_var _ _ I w) as A. rewrite Ew in A. destruct A as (x & f & Ex & Lf & Ft). pose proof (ii_var _ _ I v) as A. rewrite Ev0 in A. destruct A as (y & g & Ey & Lg & Fg).
    rewrite Ey. cbn [bind]. rewrite Ex. cbn [bind]. rewrite Lg, Lf. cbn [bind].
    pose proof (iload_some _ _ _ Lf) as (B1 & B2 & B3 & Sz). pose proof (iload_some _ _ _ Lg) as (D1 & D2 & D3 & Sg).
    destruct t as [[[b a] n] past]. destruct u as [[[b' a'] n'] past']. cbn [fst iir_assignable] in Eas. apply Nat.eqb_eq in Eas. cbn [fst snd] in Eas.
    pose proof Ft as (cs & Eb & Ea & Ef & _). pose proof Fg as (cs' & Eb' & Ea' & Eg & _).
    assert (Lc : length cs' = length cs) by (rewrite Ea, Ea' in Eas; unfold amat in Eas; rewrite !map_length in Eas; exact Eas).
    assert (Lwf : length (snd (procs cs (zeros (length cs)) past)) = length cs) by apply procs_st_len, zlen.
    assert (Lwg : length (snd (procs cs' (zeros (length cs')) past')) = length cs') by apply procs_st_len, zlen.
    rewrite assert_true by (apply Nat.eqb_eq; rewrite Ef, Eg; cbn [mk a_]; unfold amat; rewrite !map_length; lia).
    assert (S1 : same_shape (b_ g) (b_ f) = true) by (rewrite Ef, Eg; apply (shape_maps _ _ 3); auto).
    assert (S2 : same_shape (a_ g) (a_ f) = true) by (rewrite Ef, Eg; apply (shape_maps _ _ 2); auto).
    assert (S3 : same_shape (w_ g) (w_ f) = true) by (rewrite Ef, Eg; apply (shape_maps _ _ 2); [reflexivity..|]; etransitivity; [exact Lwg|]; rewrite Lc; symmetry; exact Lwf).
    pose proof (ii_dist _ _ I v y Ey) as (N1 & N2 & N3).
    assert (Nx : ap x <> bp y /\ wp x <> bp y /\ wp x <> ap y).
    { destruct (Nat.eq_dec v w) as [-> |Nvw]; [rewrite Ey in Ex; injection Ex as <-; auto|]. pose proof (fun m => ii_disj _ _ I v w y x m Nvw Ey Ex) as Dj. unfold mem_ in Dj. repeat split; intros X; rewrite X in *; [apply (Dj (bp y))|apply (Dj (bp y))|apply (Dj (ap y))]; rewrite ?X; auto. }
    destruct Nx as (X1 & X2 & X3). pose proof (at_lt _ _ _ D1) as L1. pose proof (at_lt _ _ _ D2) as L2. pose proof (at_lt _ _ _ D3) as L3.
    unfold assign_mat at 1. rewrite D1. cbn [bind]. rewrite B1. cbn [bind]. rewrite S1. cbn [bind].
    unfold assign_mat at 1. rewrite !at_lset by exact L1. rewrite (proj2 (Nat.eqb_neq (ap y) (bp y))) by congruence. rewrite D2. cbn [bind]. rewrite (proj2 (Nat.eqb_neq _ _) X1), B2. cbn [bind]. rewrite S2. cbn [bind].
    unfold assign_mat at 1. rewrite !at_lset by (rewrite ?lset_len; assumption). rewrite (proj2 (Nat.eqb_neq (wp y) (ap y))), (proj2 (Nat.eqb_neq (wp y) (bp y))) by congruence. rewrite D3. cbn [bind].
    rewrite (proj2 (Nat.eqb_neq _ _) X3), (proj2 (Nat.eqb_neq _ _) X2), B3. cbn [bind]. rewrite S3. cbn [bind].
    eexists _, []. split; [reflexivity|]. split; [|constructor].
    assert (Am : forall m, at_ (lset (lset (lset (mats st) (bp y) (Some (b_ f))) (ap y) (Some (a_ f))) (wp y) (Some (w_ f))) m =
                   if m =? wp y then Some (w_ f) else if m =? ap y then Some (a_ f) else if m =? bp y then Some (b_ f) else at_ (mats st) m) by (intros m; rewrite !at_lset by (rewrite ?lset_len; assumption); reflexivity).
    apply (iupd st s v y _ _ _ f I Ey); rewrite ?Am; rewrite ?Nat.eqb_refl; auto.
    + rewrite !lset_len. reflexivity.
    + intros m Hm. rewrite Am. unfold mem_ in Hm. rewrite !(proj2 (Nat.eqb_neq m _)) by tauto. reflexivity.
    + rewrite !(proj2 (Nat.eqb_neq (bp y) _)) by congruence. reflexivity.
    + rewrite !(proj2 (Nat.eqb_neq (ap y) (wp y))) by congruence. reflexivity.
  - destruct (at_ s v) as [t|] eqn:Ev0; [|discriminate]. cbn [bind] in E. destruct t as [[[b a] n] past]. unfold iir_accepts in E. cbn [fst snd] in E.
    destruct (_ && _) eqn:Ec in E; [|discriminate]. cbn [bind] in E. injection E as <- <-. apply andb_true_iff in Ec. destruct Ec as [C1 C2]. apply Nat.eqb_eq in C1, C2.
    pose proof (ii_var _ _ I v) as A. rewrite Ev0 in A. destruct A as (y & f & Ey & Lf & Ft). rewrite Ey. cbn [bind]. rewrite Lf. cbn [bind].
    destruct (ifilter_ok b a n past f x out Ft C1 C2) as (f' & o & Ef & Ft' & Eb & Ea & En & An). rewrite Ef. cbn [bind fst snd]. eexists _, [o]. split; [reflexivity|]. split; [|constructor; [exact An|constructor]].
    pose proof (iload_some _ _ _ Lf) as (B1 & B2 & B3 & Sz). pose proof (ii_dist _ _ I v y Ey) as (N1 & N2 & N3). pose proof (at_lt _ _ _ B3) as L3.
    rewrite <- (lset_same (ivars st) v (Some y)) at 1 by (apply at_some; exact Ey). replace (Some y) with (Some (IObj (bp y) (ap y) (wp y) (isz y))) by (destruct y; reflexivity).
    apply (iupd st s v y _ _ _ f' I Ey); rewrite ?at_lset by exact L3; rewrite ?Nat.eqb_refl; rewrite ?Eb, ?Ea, ?En; auto.
    + rewrite lset_len. reflexivity.
    + intros m Hm. rewrite at_lset by exact L3. unfold mem_ in Hm. rewrite (proj2 (Nat.eqb_neq m _)) by tauto. reflexivity.
    + rewrite (proj2 (Nat.eqb_neq (bp y) _)) by congruence. exact B1.
    + rewrite (proj2 (Nat.eqb_neq (ap y) _)) by congruence. exact B2.
  - destruct (at_ s v) as [t|] eqn:Ev0; [|discriminate]. cbn [bind] in E. injection E as <- <-. destruct t as [[[b a] n] past]. cbn [fst snd].
    pose proof (ii_var _ _ I v) as A. rewrite Ev0 in A. destruct A as (y & f & Ey & Lf & Ft). rewrite Ey. cbn [bind]. rewrite Lf. cbn [bind]. eexists _, []. split; [reflexivity|]. split; [|constructor].
    pose proof (iload_some _ _ _ Lf) as (B1 & B2 & B3 & Sz). pose proof (ii_dist _ _ I v y Ey) as (N1 & N2 & N3). pose proof (at_lt _ _ _ B3) as L3.
    rewrite <- (lset_same (ivars st) v (Some y)) at 1 by (apply at_some; exact Ey). replace (Some y) with (Some (IObj (bp y) (ap y) (wp y) (isz y))) by (destruct y; reflexivity).
    apply (iupd st s v y _ _ _ (Iir.reset f) I Ey); rewrite ?at_lset by exact L3; rewrite ?Nat.eqb_refl; auto.
    + rewrite lset_len. reflexivity.
    + intros m Hm. rewrite at_lset by exact L3. unfold mem_ in Hm. rewrite (proj2 (Nat.eqb_neq m _)) by tauto. reflexivity.
    + rewrite (proj2 (Nat.eqb_neq (bp y) _)) by congruence. exact B1.
    + rewrite (proj2 (Nat.eqb_neq (ap y) _)) by congruence. exact B2.
    + eapply ireset_ok. exact Ft.
  - destruct (at_ s v) as [t|] eqn:Ev0; [|discriminate]. cbn [bind] in E. injection E as <- <-. pose proof (ii_var _ _ I v) as A. rewrite Ev0 in A. destruct A as (y & f & Ey & Lf & Ft). rewrite Ey. cbn [bind]. rewrite Lf. cbn [bind].
    eexists _, []. split; [reflexivity|]. split; [|constructor]. pose proof (iload_some _ _ _ Lf) as (B1 & B2 & B3 & Sz). pose proof (at_lt _ _ _ B1) as L1. pose proof (at_lt _ _ _ B2) as L2. pose proof (at_lt _ _ _ B3) as L3.
    pose proof (at_lt _ _ _ Ey) as Lv.
    assert (Am : forall m, at_ (lset (lset (lset (mats st) (bp y) None) (ap y) None) (wp y) None) m = if m =? wp y then None else if m =? ap y then None else if m =? bp y then None else at_ (mats st) m) by (intros m; rewrite !at_lset by (rewrite ?lset_len; assumption); reflexivity).
    assert (Al : forall v', at_ (lset (ivars st) v None) v' = if v' =? v then None else at_ (ivars st) v') by (intros v'; apply at_lset; exact Lv).
    constructor; cbn [ivars mats].
    + rewrite !lset_len. apply I.
    + intros v'. rewrite Al, at_lset by (rewrite <- (ii_len _ _ I); exact Lv). destruct (Nat.eqb_spec v' v) as [-> |N]; [reflexivity|]. pose proof (ii_var _ _ I v') as A. destruct (at_ s v') as [u|]; [|exact A].
      destruct A as (o2 & g & E2 & Lg & Fg). exists o2, g. split; [exact E2|]. split; [|exact Fg]. rewrite <- Lg. apply iload_same. intros m Hm. cbn [mats]. rewrite Am.
      pose proof (ii_disj _ _ I v' v o2 y m N E2 Ey Hm) as D. unfold mem_ in D. rewrite !(proj2 (Nat.eqb_neq m _)) by tauto. reflexivity.
    + intros v' o'. rewrite Al. destruct (v' =? v); [discriminate|apply (ii_dist _ _ I)].
    + intros v1 v2 o1 o2 m N. rewrite !Al. destruct (v1 =? v), (v2 =? v); try discriminate. apply (ii_disj _ _ I). exact N.
    + intros m x. rewrite Am. destruct (Nat.eqb_spec m (wp y)); [discriminate|]. destruct (Nat.eqb_spec m (ap y)); [discriminate|]. destruct (Nat.eqb_spec m (bp y)); [discriminate|]. intros Em. destruct (ii_used _ _ I m x Em) as (v' & o' & Ev & Hm).
      exists v', o'. rewrite Al. destruct (Nat.eqb_spec v' v) as [-> |]; [|auto]. rewrite Ey in Ev. injection Ev as <-. unfold mem_ in Hm. tauto.
Qed.
Lemma iinv_start : iinv istart [].
Proof.
  assert (N : forall A i, at_ (@nil (option A)) i = None) by (intros A [|i]; reflexivity).
  constructor; cbn [istart ivars mats]; try reflexivity; intros; rewrite ?N in *; try reflexivity; discriminate.
Qed.
Lemma iir_exec ops : forall st s s' q, iinv st s -> exec isstep s ops = Some (s', q) -> exists st' r, exec imstep st ops = Some (st', r) /\ iinv st' s' /\ Forall2 iir_answer q r.
Proof.
  induction ops as [|o ops IH]; intros st s s' q I E; cbn [exec] in *.
  - injection E as <- <-. exists st, []. auto.
  - destruct (isstep s o) as [[s1 q1]|] eqn:E1; [|discriminate]. cbn [bind fst snd] in E. destruct (exec isstep s1 ops) as [[s2 q2]|] eqn:E2; [|discriminate]. cbn [bind fst snd] in E. injection E as <- <-.
    destruct (iir_step st s o s1 q1 I E1) as (st1 & r1 & M1 & I1 & F1). destruct (IH st1 s1 s2 q2 I1 E2) as (st2 & r2 & M2 & I2 & F2).
    rewrite M1. cbn [bind fst snd]. rewrite M2. cbn [bind fst snd]. exists st2, (r1 ++ r2). split; [reflexivity|]. split; [exact I2|]. apply Forall2_app; assumption.
Qed.
Lemma iinv_empty st s : iinv st s -> Forall (eq None) s -> Forall (eq None) (ivars st) /\ Forall (eq None) (mats st).
Proof.
  intros I F. assert (Fv : forall v, at_ (ivars st) v = None) by (intros v; pose proof (ii_var _ _ I v) as A; rewrite (none_all s v F) in A; exact A).
  split; [apply all_none; exact Fv|]. apply all_none. intros m. destruct (at_ (mats st) m) eqn:E; [|reflexivity]. destruct (ii_used _ _ I m _ E) as (v & o & Ev & _). rewrite Fv in Ev. discriminate.
Qed.
End IirRun.
