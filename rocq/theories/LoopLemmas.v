(** Lemmas about counted loops as folds over index lists, and about
    sequences of element copies in memory. *)
From Coq Require Import ZArith List Lia Bool Arith.
From Verif Require Import Base.
Import ListNotations.
Local Open Scope nat_scope.

Fixpoint foldM {S X} (f : X -> S -> option S) (l : list X) (s : S) : option S :=
  match l with [] => Some s | x :: r => s' <- f x s ;; foldM f r s' end.

Lemma loop_foldM {S} (f : nat -> S -> option S) n : forall i s, loop f i n s = foldM f (seq i n) s.
Proof.
  induction n as [|n IH]; intros i s; simpl; [reflexivity|].
  destruct (f i s); simpl; [|reflexivity]. rewrite IH, Nat.add_1_r. reflexivity.
Qed.

Lemma foldM_app {S X} (f : X -> S -> option S) l1 : forall l2 s,
  foldM f (l1 ++ l2) s = (t <- foldM f l1 s ;; foldM f l2 t).
Proof.
  induction l1 as [|x l1 IH]; intros l2 s; simpl; [reflexivity|].
  destruct (f x s); simpl; auto.
Qed.

Lemma foldM_ext {S X} (f g : X -> S -> option S) l : forall s,
  (forall x t, In x l -> f x t = g x t) -> foldM f l s = foldM g l s.
Proof.
  induction l as [|x l IH]; intros s H; simpl; [reflexivity|].
  rewrite H by (left; reflexivity). destruct (g x s); simpl; [|reflexivity].
  apply IH. intros; apply H; right; assumption.
Qed.

Lemma foldM_flat_map {S X Y} (f : Y -> S -> option S) (g : X -> list Y) l : forall s,
  foldM (fun x s => foldM f (g x) s) l s = foldM f (flat_map g l) s.
Proof.
  induction l as [|x l IH]; intros s; simpl; [reflexivity|].
  rewrite foldM_app. destruct (foldM f (g x) s); simpl; auto.
Qed.

Lemma foldM_map {S X Y} (f : Y -> S -> option S) (g : X -> Y) l : forall s,
  foldM (fun x s => f (g x) s) l s = foldM f (map g l) s.
Proof.
  induction l as [|x l IH]; intros s; simpl; [reflexivity|].
  destruct (f (g x) s); simpl; auto.
Qed.

Lemma foldM_inv {S X} (f : X -> S -> option S) (P : list X -> S -> Prop) l : forall done s,
  P done s ->
  (forall pre x post t, l = pre ++ x :: post -> P (done ++ pre) t ->
     exists t', f x t = Some t' /\ P (done ++ pre ++ [x]) t') ->
  exists s', foldM f l s = Some s' /\ P (done ++ l) s'.
Proof.
  induction l as [|x l IH]; intros done s H0 Hs; simpl.
  - exists s. rewrite app_nil_r. auto.
  - destruct (Hs [] x l s eq_refl) as (t & Et & Pt).
    { rewrite app_nil_r. exact H0. }
    simpl in Pt. rewrite Et; simpl.
    destruct (IH (done ++ [x]) t Pt) as (s' & E & Q).
    + intros pre y post u -> Pu.
      destruct (Hs (x :: pre) y post u eq_refl) as (t' & E' & P').
      { replace (done ++ x :: pre) with ((done ++ [x]) ++ pre) by (rewrite <- app_assoc; reflexivity). exact Pu. }
      exists t'. split; [exact E'|].
      replace ((done ++ [x]) ++ pre ++ [y]) with (done ++ (x :: pre) ++ [y]) by (rewrite <- app_assoc; reflexivity).
      exact P'.
    + exists s'. split; [exact E|]. rewrite <- app_assoc in Q. exact Q.
Qed.

(** Loops that carry two running pointers. *)
Lemma ptr_loop {V} (g : mem V -> Z -> Z -> option (mem V)) (a b l0 r0 : Z) n : forall i m,
  loop (fun _ s => let '(m, l, r) := s in m <- g m l r ;; Some (m, (l + a)%Z, (r + b)%Z)) i n
       (m, (l0 + Z.of_nat i * a)%Z, (r0 + Z.of_nat i * b)%Z) =
  (m' <- loop (fun k m => g m (l0 + Z.of_nat k * a)%Z (r0 + Z.of_nat k * b)%Z) i n m ;;
   Some (m', (l0 + Z.of_nat (i + n) * a)%Z, (r0 + Z.of_nat (i + n) * b)%Z)).
Proof.
  induction n as [|n IH]; intros i m; simpl.
  - rewrite Nat.add_0_r. reflexivity.
  - destruct (g m _ _) as [m1|]; simpl; [|reflexivity].
    replace (l0 + Z.of_nat i * a + a)%Z with (l0 + Z.of_nat (i + 1) * a)%Z by lia.
    replace (r0 + Z.of_nat i * b + b)%Z with (r0 + Z.of_nat (i + 1) * b)%Z by lia.
    rewrite IH. replace (i + 1 + n) with (i + S n) by lia. reflexivity.
Qed.

(** ** Sequences of element copies *)
Section Copies.
Context {V : Type}.
Definition cp (f : V -> V) (ds : Z * Z) (m : mem V) : option (mem V) :=
  x <- mload m (snd ds) ;; mstore m (fst ds) (f x).

Lemma copies_ok (f : V -> V) (L : list (Z * Z)) (m : mem V) :
  NoDup (map fst L) ->
  (forall d s, In (d, s) L -> m d <> None /\ m s <> None) ->
  (forall d s d' s', In (d, s) L -> In (d', s') L -> s = d' -> d = d') ->
  exists m', foldM (cp f) L m = Some m' /\
    (forall d s, In (d, s) L -> exists x, m s = Some x /\ m' d = Some (f x)) /\
    (forall a, ~ In a (map fst L) -> m' a = m a).
Proof.
  intros ND HM HA.
  destruct (foldM_inv (cp f) (fun P t =>
      (forall d s, In (d, s) P -> exists x, m s = Some x /\ t d = Some (f x)) /\
      (forall a, ~ In a (map fst P) -> t a = m a)) L [] m) as (m' & E & Q).
  - split; [intros d s []|reflexivity].
  - intros pre [d s] post t EL [Q1 Q2]. simpl in *.
    assert (Hin : In (d, s) L) by (rewrite EL; apply in_or_app; right; left; reflexivity).
    destruct (HM d s Hin) as [Hd Hs].
    assert (Nd : ~ In d (map fst pre)).
    { rewrite EL, map_app in ND. simpl in ND. apply NoDup_remove_2 in ND.
      intros K. apply ND. apply in_or_app. left; exact K. }
    assert (Ns : ~ In s (map fst pre)).
    { intros K. apply in_map_iff in K. destruct K as ((d' & s') & K1 & K2). simpl in K1. subst d'.
      assert (In (s, s') L) by (rewrite EL; apply in_or_app; left; exact K2).
      assert (d = s) by (eapply HA; eauto). subst d. apply Nd.
      apply in_map_iff. exists (s, s'). auto. }
    destruct (m s) as [x|] eqn:Es; [|congruence].
    unfold cp, mload, mstore; simpl. rewrite (Q2 s Ns), Es; simpl.
    rewrite (Q2 d Nd). destruct (m d) as [y|] eqn:Ed; [|congruence].
    eexists; split; [reflexivity|]. split.
    + intros d' s' K. apply in_app_or in K. destruct K as [K|[K|[]]].
      * destruct (Q1 d' s' K) as (x' & X1 & X2). exists x'. split; [exact X1|].
        unfold mupd. destruct (Z.eqb_spec d' d) as [->|]; [|exact X2].
        exfalso. apply Nd. apply in_map_iff. exists (d, s'). auto.
      * inversion K; subst d' s'. exists x. split; [exact Es|].
        unfold mupd. rewrite Z.eqb_refl. reflexivity.
    + intros a K. rewrite map_app in K. unfold mupd.
      destruct (Z.eqb_spec a d) as [->|].
      * exfalso; apply K; apply in_or_app; right; left; reflexivity.
      * apply Q2. intros K'; apply K; apply in_or_app; left; exact K'.
  - exists m'. split; [exact E|]. exact Q.
Qed.
End Copies.

(** All index pairs in row order. *)
Definition pairs (n k : nat) : list (nat * nat) := flat_map (fun i => map (pair i) (seq 0 k)) (seq 0 n).
Lemma in_pairs n k i j : In (i, j) (pairs n k) <-> i < n /\ j < k.
Proof.
  unfold pairs. rewrite in_flat_map. split.
  - intros (x & H1 & H2). apply in_map_iff in H2. destruct H2 as (y & E & H2). inversion E; subst.
    apply in_seq in H1. apply in_seq in H2. lia.
  - intros [H1 H2]. exists i. split; [apply in_seq; lia|]. apply in_map. apply in_seq; lia.
Qed.

Lemma NoDup_map_in {X Y} (f : X -> Y) l :
  NoDup l -> (forall x y, In x l -> In y l -> f x = f y -> x = y) -> NoDup (map f l).
Proof.
  induction 1 as [|x l Hx ND IH]; intros Hf; simpl; constructor.
  - intros K. apply in_map_iff in K. destruct K as (y & E & Hy).
    apply Hx. replace x with y; [exact Hy|]. apply Hf; [right; exact Hy|left; reflexivity|exact E].
  - apply IH. intros; apply Hf; try (right; assumption); assumption.
Qed.

Lemma NoDup_flat_map {X Y} (g : X -> list Y) l :
  NoDup l -> (forall x, In x l -> NoDup (g x)) ->
  (forall x y z, In x l -> In y l -> In z (g x) -> In z (g y) -> x = y) ->
  NoDup (flat_map g l).
Proof.
  induction 1 as [|x l Hx ND IH]; intros Hg Hd; simpl; [constructor|].
  assert (IH' : NoDup (flat_map g l)).
  { apply IH; [intros; apply Hg; right; assumption|].
    intros a b z Ha Hb; apply Hd; right; assumption. }
  assert (Hgx : NoDup (g x)) by (apply Hg; left; reflexivity).
  assert (Hdis : forall z, In z (g x) -> ~ In z (flat_map g l)).
  { intros z H1 H2. apply in_flat_map in H2. destruct H2 as (y & Hy & Hz).
    apply Hx. replace x with y; [exact Hy|]. symmetry.
    eapply Hd; [left; reflexivity|right; exact Hy|exact H1|exact Hz]. }
  clear - IH' Hgx Hdis. induction (g x) as [|z r IHr]; simpl; [exact IH'|].
  inversion Hgx; subst. constructor.
  - intros K. apply in_app_or in K. destruct K as [K|K]; [contradiction|].
    eapply Hdis; [left; reflexivity|exact K].
  - apply IHr; [assumption|]. intros; apply Hdis; right; assumption.
Qed.

Lemma NoDup_pairs n k : NoDup (pairs n k).
Proof.
  unfold pairs. apply NoDup_flat_map.
  - apply seq_NoDup.
  - intros x _. apply NoDup_map_in; [apply seq_NoDup|]. intros a b _ _ E; inversion E; reflexivity.
  - intros x y z _ _ H1 H2. apply in_map_iff in H1, H2.
    destruct H1 as (? & <- & _). destruct H2 as (? & E & _). inversion E; reflexivity.
Qed.

Lemma loop2_pairs {S} (f : nat -> nat -> S -> option S) n k s :
  loop (fun i s => loop (f i) 0 k s) 0 n s = foldM (fun ij s => f (fst ij) (snd ij) s) (pairs n k) s.
Proof.
  rewrite loop_foldM. unfold pairs. rewrite <- foldM_flat_map. apply foldM_ext.
  intros x t _. rewrite loop_foldM. rewrite <- foldM_map. reflexivity.
Qed.
